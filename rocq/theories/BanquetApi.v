(** From the phases to the API: regular instances, and so the built-in ones, satisfy [inst_ok], keys returned by keygen satisfy [key_ok],
    the challenges' sampling loops, and the outcome of sign followed by verify. *)
From Coq Require Import Arith NArith List Bool Lia.
From Verif Require Import Prelude FieldModel FieldSpec FieldApi FieldLin PolyModel Instances HashModel TreeModel TreeSpec TreeApi TreeRev AesSpec AesModel AesBase AesApi AesShares BanquetModel ContainerModel ListSum BanquetHash BanquetPure BanquetVerify BanquetSign BanquetPoly BanquetCtx BanquetRun Serialize FreeSpec.
Import ListNotations.

(** the key length of the instance in 32-bit words *)
Definition nk_of (I : instance) : nat := key_size (i_aes I) / 4.

Lemma builtin_regular I : builtin I -> regular I.
Proof.
  intros HB. destruct (builtin_facts I HB) as (MM & A & SD & (k & Hk & HP) & L). constructor.
  - constructor.
    + destruct A as [(-> & _)|[(-> & _)|(-> & _)]]; cbn; tauto.
    + destruct L as [->|[->| ->]]; cbn; tauto.
    + exact MM.
    + assert (D : digest_size I = 32 \/ digest_size I = 48 \/ digest_size I = 64) by tauto. lia.
    + assert (2 ^ 1 <= 2 ^ k <= 2 ^ 8) by (split; apply Nat.pow_le_mono_r; lia). change (2 ^ 1) with 2 in *. change (2 ^ 8) with 256 in *. lia.
  - tauto.
  - exists k. split; [exact HP|lia].
Qed.
Lemma regular_pow2 I : regular I -> exists k, num_parties I = 2 ^ k /\ k <= 8.
Proof. intros R. exact (rg_power _ R). Qed.
Lemma builtin_pow2 I : builtin I -> exists k, num_parties I = 2 ^ k /\ k <= 8.
Proof. intros HB. exact (regular_pow2 I (builtin_regular I HB)). Qed.
Lemma near_log n : 2 <= n -> (near_power n <-> 2 ^ Nat.log2_up n - 16 < n).
Proof.
  intros Hn. destruct (Nat.log2_up_spec n ltac:(lia)) as [L U]. split.
  - intros (k & A & B). assert (Nat.log2_up n <= k) by (apply Nat.log2_up_le_pow2; lia). assert (2 ^ Nat.log2_up n <= 2 ^ k) by (apply Nat.pow_le_mono_r; lia). lia.
  - intros W. exists (Nat.log2_up n). lia.
Qed.
Lemma proper_any I : proper I -> exists c, inst_any I c (nk_of I).
Proof.
  intros P. destruct (pr_parties _ P) as [H2 HN].
  assert (HF : exists c, init_extension_field (lambda I) = Ok c).
  { destruct (pr_lambda _ P) as [<-|[<-|[<-|[<-|[]]]]]; eexists; reflexivity. }
  destruct HF as [c Hc]. exists c. pose proof (pr_sboxes _ P) as MM. pose proof (pr_seed _ P) as SD. unfold nk_of, pt_size.
  assert (M : 1 <= m1 I /\ 1 <= m2 I).
  { assert (0 < num_sboxes (i_aes I)) by (destruct (pr_aes _ P) as [<-|[<-|[<-|[]]]]; cbn; lia). nia. }
  assert (LO : leaves_ok (num_parties I)) by (split; [exact H2|]; apply N.lt_le_incl, (N.lt_trans _ 65536); [exact HN|reflexivity]).
  destruct (pr_aes _ P) as [EA|[EA|[EA|[]]]]; constructor; unfold pt_size; try rewrite <- EA; cbn [key_size block_size num_blocks num_sboxes]; try reflexivity; try lia; try assumption; try (rewrite MM, <- EA; apply le_n); try tauto;
  cbn; auto.
Qed.
Lemma proper_ok I : proper I -> near_power (num_parties I) -> exists c, inst_ok I c (nk_of I).
Proof.
  intros P NP. destruct (proper_any I P) as [c A]. exists c. apply near_log in NP; [|apply P]. exact (mkInstOk _ _ _ A NP).
Qed.
Lemma regular_inst_ok I : regular I -> exists c, inst_ok I c (nk_of I).
Proof. intros R. destruct (regular_pow2 I R) as (k & HP & Hk). apply proper_ok; [apply R|]. exists k. lia. Qed.
Lemma builtin_inst_ok I : builtin I -> exists c, inst_ok I c (nk_of I).
Proof. intros HB. exact (regular_inst_ok I (builtin_regular I HB)). Qed.
Lemma regular_mm I : regular I -> m1 I * m2 I = num_sboxes (i_aes I).
Proof. intros R. apply R. Qed.

Lemma with_field_ok {A} st lam c (f : fctx -> res A) : init_extension_field lam = Ok c -> with_field st lam f = (Some c, f c).
Proof. intros E. unfold with_field, st_init. rewrite E. reflexivity. Qed.

(** *** keygen *)
Definition rng_bytes (r : rng) : Prop := forall i, is_bytes (snd (r i)).
Lemma copy_into_str a b n x : is_bytes a -> str n b -> copy_into a b = Ok x -> str n x.
Proof.
  intros Ba [L B] E. unfold copy_into in E. destruct (length a <=? length b) eqn:El; [|discriminate E]. injection E as <-. apply Nat.leb_le in El.
  split; [rewrite app_length, skipn_length; lia|]. apply is_bytes_app; [exact Ba|apply is_bytes_skipn; exact B].
Qed.
Lemma pt_size_eq I c nk : inst_ok I c nk -> aes_pt_size (key_size (i_aes I)) = pt_size I.
Proof. intros OK. rewrite (io_pt _ _ _ OK), (io_ks _ _ _ OK). destruct (io_nk _ _ _ OK) as [<-|[<-|[<-|[]]]]; reflexivity. Qed.
Lemma aes_plain_ok I c nk key pt : inst_ok I c nk -> str (key_size (i_aes I)) key -> str (pt_size I) pt ->
  aes_plain (key_size (i_aes I)) key pt = Ok (aes_n nk key pt).
Proof.
  intros OK Hk Hp. unfold aes_plain. rewrite (by_key I c nk OK). cbn [bind]. rewrite read_all by apply Hk. cbn [bind].
  rewrite (pt_size_eq I c nk OK), read_all by apply Hp. cbn [bind]. destruct (io_nk _ _ _ OK) as [<-|[<-|[<-|[]]]]; reflexivity.
Qed.
Lemma inst_aes_in I c nk key pt : inst_ok I c nk -> str (key_size (i_aes I)) key -> str (pt_size I) pt -> aes_in nk key pt.
Proof.
  intros OK [Lk Bk] [Lp Bp]. apply aes_in_intro; auto.
  - apply (io_nk _ _ _ OK).
  - rewrite Lk. apply (io_ks _ _ _ OK).
  - rewrite Lp. apply (io_pt _ _ _ OK).
Qed.
Lemma keygen_loop_ok I c nk r : inst_ok I c nk -> rng_bytes r -> forall fuel i key pt kp, str (key_size (i_aes I)) key -> str (pt_size I) pt ->
  keygen_loop fuel I r i key pt = Ok kp ->
  exists key' pt' ct, kp = (key', pt' ++ ct) /\ str (key_size (i_aes I)) key' /\ str (pt_size I) pt' /\ aes_n nk key' pt' = Some ct.
Proof.
  intros OK HR. induction fuel as [|f IH]; intros i key pt kp Hk Hp E; [discriminate E|]. cbn [keygen_loop] in E. unfold rand_bytes in E.
  destruct (copy_into (snd (r i)) key) as [k1| | |] eqn:E1; try discriminate E. cbn [bind] in E.
  destruct (copy_into (snd (r (i + 1))) pt) as [p1| | |] eqn:E2; try discriminate E. cbn [bind] in E.
  apply (copy_into_str _ _ _ _ (HR i) Hk) in E1. apply (copy_into_str _ _ _ _ (HR (i + 1)) Hp) in E2.
  rewrite (aes_plain_ok I c nk _ _ OK E1 E2) in E. cbn [bind] in E. destruct (aes_n nk k1 p1) as [ct|] eqn:Ea.
  - injection E as <-. exists k1, p1, ct. auto.
  - apply (IH _ _ _ _ E1 E2 E).
Qed.
Lemma keygen_ok I c nk r fuel kp : inst_ok I c nk -> rng_bytes r -> keygen fuel I r = Ok kp ->
  exists key pt ct, kp = (key, pt ++ ct) /\ str (key_size (i_aes I)) key /\ str (pt_size I) pt /\ aes_n nk key pt = Some ct.
Proof. intros OK HR E. apply (keygen_loop_ok I c nk r OK HR _ _ _ _ _ (str_zeros _) (str_zeros _) E). Qed.
Lemma valid_key I c nk key pt ct : inst_ok I c nk -> str (key_size (i_aes I)) key -> str (pt_size I) pt -> aes_n nk key pt = Some ct ->
  exists s t, key_ok I nk key pt ct s t.
Proof.
  intros OK Hk Hp E. destruct (aes_pairs nk key pt ct (inst_aes_in I c nk _ _ OK Hk Hp) E) as (s & t & E' & _). exists s, t. constructor; auto.
Qed.

(** *** sampling *)
Lemma party_fits I x : num_parties I = 2 ^ ceil_log2_nat (num_parties I) -> num_parties I <= 256 -> (N.land x (party_mask I) < N.of_nat (num_parties I))%N.
Proof.
  intros E Hs. assert (M : party_mask I = N.ones (N.of_nat (ceil_log2_nat (num_parties I)))).
  { unfold party_mask. rewrite N.ones_equiv, <- N.sub_1_r. apply N.mod_small. apply (f_equal N.of_nat) in E. rewrite Nat2N.inj_pow in E. change (N.of_nat 2) with 2%N in E.
    rewrite <- E. lia. }
  rewrite M, N.land_ones. apply (f_equal N.of_nat) in E. rewrite Nat2N.inj_pow in E. change (N.of_nat 2) with 2%N in E. rewrite <- E. apply N.mod_lt. rewrite E. apply N.pow_nonzero. discriminate.
Qed.
Lemma sample_parties_pow2 H I fuel garb n : num_parties I = 2 ^ ceil_log2_nat (num_parties I) -> num_parties I <= 256 -> 1 <= fuel ->
  forall e ctx, sample_parties H I fuel garb e n ctx <> OutOfFuel.
Proof.
  intros E Hs Hf. destruct fuel as [|f]; [lia|]. induction n; intros e ctx; cbn [sample_parties]; [discriminate|]. cbn [sample_party]. destruct (hash_squeeze H ctx (squeeze_size I)) as [b cb].
  match goal with |- context [N.land ?x (party_mask I)] => pose proof (party_fits I x E Hs) as F; set (y := N.land x (party_mask I)) in * end.
  apply N.leb_gt in F. rewrite F. cbn [bind].
  match goal with |- context [sample_parties H I (S f) garb (S e) n ?k] => specialize (IHn (S e) k); destruct (sample_parties H I (S f) garb (S e) n k) end;
  cbn [bind]; try discriminate. congruence.
Qed.
Lemma regular_phase3 H I fuel garb h3 : regular I -> 1 <= fuel -> phase_3_expand H I fuel garb h3 <> OutOfFuel.
Proof.
  intros R Hf. destruct (regular_pow2 I R) as (k & HP & Hk). apply sample_parties_pow2; [|rewrite HP|exact Hf].
  - rewrite HP. clear - Hk. do 9 (destruct k as [|k]; [vm_compute; reflexivity|]). lia.
  - change 256 with (2 ^ 8). apply Nat.pow_le_mono_r; lia.
Qed.
(** when the sampling of R does not end within the fuel, the output stream of some digest contains that many successive
    blocks of lambda bytes that are all forbidden points *)
Section Stuck.
Variables (H : oracle) (I : instance) (c : fctx).
Hypothesis HI : init_extension_field (lambda I) = Ok c.
Variable forb : list N.
Hypothesis Lf : length forb = m2 I.
Variables (v : bool) (m : bytes).
Notation cand k := (from_bytes (stream H v m (k * lambda I) (lambda I))).
Lemma sample_R_stuck fuel : forall k,
  (sample_R H I c fuel forb (mkCtx v m (Some (k * lambda I))) = OutOfFuel /\ forall i, i < fuel -> In (cand (k + i)) forb) \/
  exists x k', sample_R H I c fuel forb (mkCtx v m (Some (k * lambda I))) = Ok (x, mkCtx v m (Some (k' * lambda I))).
Proof.
  induction fuel as [|f IH]; intros k; [left; split; [reflexivity|intros; lia]|]. cbn [sample_R hash_squeeze h_v h_in h_off].
  rewrite (elem_at_ok I c HI) by (rewrite stream_length; lia). cbn [bind].
  assert (RF : read forb 0 (m2 I) = Ok forb) by (rewrite read_ok by lia; unfold slice; cbn [skipn]; rewrite <- Lf, firstn_all; reflexivity).
  rewrite RF. cbn [bind].
  assert (ES : slice (stream H v m (k * lambda I) (lambda I)) 0 (lambda I) = stream H v m (k * lambda I) (lambda I)).
  { unfold slice. cbn [skipn]. rewrite <- (stream_length H v m (k * lambda I) (lambda I)) at 1. apply firstn_all. }
  rewrite ES. replace (k * lambda I + lambda I) with (S k * lambda I) by (cbn; lia).
  destruct (existsb (N.eqb (cand k)) forb) eqn:Ex.
  - destruct (IH (S k)) as [[A B]|B]; [left|right; exact B]. split; [exact A|]. intros i Hi. destruct i as [|i].
    + rewrite Nat.add_0_r. apply existsb_exists in Ex. destruct Ex as (y & Hy & Ey). apply N.eqb_eq in Ey. rewrite Ey. exact Hy.
    + replace (k + S i) with (S k + i) by lia. apply B. lia.
  - right. eexists _, (S k). reflexivity.
Qed.
Lemma sample_Rs_stuck fuel n : forall k, sample_Rs H I c fuel forb n (mkCtx v m (Some (k * lambda I))) = OutOfFuel ->
  exists k', forall i, i < fuel -> In (cand (k' + i)) forb.
Proof.
  induction n; intros k; cbn [sample_Rs]; [discriminate|].
  destruct (sample_R_stuck fuel k) as [[-> B]|(x & k' & ->)]; [intros _; exists k; exact B|]. cbn [bind].
  specialize (IHn k'). destruct (sample_Rs H I c fuel forb n (mkCtx v m (Some (k' * lambda I)))); cbn [bind]; try discriminate. intros _. apply IHn. reflexivity.
Qed.
End Stuck.
(** candidate number k for R in the output stream of digest h2 *)
Definition R_candidate (H : oracle) (I : instance) (h2 : bytes) (k : nat) : N :=
  from_bytes (stream H (digest_size I =? 32) h2 (k * lambda I) (lambda I)).
Lemma phase_2_stuck H I c nk fuel h2 : inst_any I c nk -> phase_2_expand H I c fuel h2 (get_first_n_field_elements c (m2 I)) = OutOfFuel ->
  exists k, forall i, i < fuel -> In (R_candidate H I h2 (k + i)) (get_first_n_field_elements c (m2 I)).
Proof.
  intros OK E. apply (sample_Rs_stuck H I c (io_field _ _ _ OK) _ ltac:(apply (api_points _ _ (io_field _ _ _ OK)); apply (points_ok I c nk OK); lia)) with (n := num_rounds I) (k := 0).
  exact E.
Qed.

(** *** sign, with any ciphertext ct in the public key; ct0 is the one that belongs there *)
Section AnyKey.
Variables (H : oracle) (I : instance) (c : fctx) (nk : nat).
Hypothesis OK : inst_ok I c nk.
Variables (key pt ct0 ct : bytes).
Hypothesis Hk : str (key_size (i_aes I)) key.
Hypothesis Hp : str (pt_size I) pt.
Hypothesis Hct : aes_n nk key pt = Some ct0.
Hypothesis Lct : length ct = pt_size I.

Lemma any_total fuel garb st msg :
  (snd (sign H fuel garb st I (key, pt ++ ct) msg) = OutOfFuel /\
   ((exists h2, phase_2_expand H I c fuel h2 (get_first_n_field_elements c (m2 I)) = OutOfFuel) \/
    (exists h3, phase_3_expand H I fuel garb h3 = OutOfFuel))) \/
  exists sig, snd (sign H fuel garb st I (key, pt ++ ct) msg) = Ok sig.
Proof.
  unfold sign. rewrite (with_field_ok _ _ _ _ (io_field _ _ _ OK)). cbn [snd].
  destruct (valid_key I c nk key pt ct0 OK Hk Hp Hct) as (s & t & KO).
  destruct (lagr1 I c nk OK) as [pre1 G1]. destruct (lagr2 I c nk OK) as [pre2 G2].
  destruct (any_run H I c nk OK pre1 pre2 G1 G2 key pt ct0 ct s t KO Lct msg fuel garb) as [E|(D & sig & E & _)]; [left; exact E|right; exists sig; exact E].
Qed.
(** the result of sign has the prescribed sizes, stores the indices derived from its h_3 and survives serialization *)
Lemma any_shape fuel garb st msg sig st' : sign H fuel garb st I (key, pt ++ ct) msg = (st', Ok sig) ->
  st' = Some c /\ sig_shape I sig /\
  forall fuel2 garb2, fuel <= fuel2 -> phase_3_expand H I fuel2 garb2 (s_h3 sig) = Ok (map (fun p => snd (p_reveal p)) (s_proofs sig)).
Proof.
  unfold sign. rewrite (with_field_ok _ _ _ _ (io_field _ _ _ OK)). intros E. injection E as <- E. split; [reflexivity|].
  destruct (valid_key I c nk key pt ct0 OK Hk Hp Hct) as (s & t & KO).
  destruct (lagr1 I c nk OK) as [pre1 G1]. destruct (lagr2 I c nk OK) as [pre2 G2].
  destruct (any_run H I c nk OK pre1 pre2 G1 G2 key pt ct0 ct s t KO Lct msg fuel garb) as [X|(D & sig' & X & RO)]; [destruct X as [X _]|]; rewrite X in E; [discriminate E|].
  injection E as ->. pose proof (ro_sig _ _ _ _ _ _ _ _ _ _ _ _ _ _ _ _ RO) as ES. split.
  - constructor; rewrite ES; cbn [s_salt s_h1 s_h3 s_proofs].
    + apply salt_str.
    + unfold sg_h1. split; [apply stream_length|apply stream_bytes].
    + unfold sg_h3. split; [apply stream_length|apply stream_bytes].
    + apply length_map_seq.
    + apply Forall_map, Forall_forall. intros r Hr. apply in_seq in Hr. apply (sg_shape H I c nk OK pre1 pre2 key pt ct0 ct s t KO msg fuel garb D sig RO). lia.
  - intros fuel2 garb2 Hf. assert (HN : 1 <= num_parties I) by (pose proof (n_pos I c nk OK); lia). rewrite ES. cbn [s_h3 s_proofs]. rewrite map_map. cbn [sg_proof p_reveal snd].
    replace fuel2 with (fuel + (fuel2 - fuel)) by lia.
    rewrite (phase_3_garb H I HN _ garb2 garb). pose proof (ro_m _ _ _ _ _ _ _ _ _ _ _ _ _ _ _ _ RO) as Y.
    destruct (phase_3_outcome H I HN fuel garb (sg_h3 H I c nk pre1 pre2 key pt ct s t msg D)) as [Z|(ms & Z & _ & _ & W)]; rewrite Y in Z; [discriminate Z|].
    injection Z as <-. apply W.
Qed.
End AnyKey.
(** *** sign and verify *)
Section Api.
Variables (H : oracle) (I : instance) (c : fctx) (nk : nat).
Hypothesis OK : inst_ok I c nk.
Variables (key pt ct : bytes).
Hypothesis Hk : str (key_size (i_aes I)) key.
Hypothesis Hp : str (pt_size I) pt.
Hypothesis Hct : aes_n nk key pt = Some ct.

Lemma right_len : length ct = pt_size I.
Proof. destruct (valid_key I c nk key pt ct OK Hk Hp Hct) as (s & t & KO). exact (ct_len I c nk OK key pt ct s t KO). Qed.
Lemma sign_total fuel garb st msg :
  (snd (sign H fuel garb st I (key, pt ++ ct) msg) = OutOfFuel /\
   ((exists h2, phase_2_expand H I c fuel h2 (get_first_n_field_elements c (m2 I)) = OutOfFuel) \/
    (exists h3, phase_3_expand H I fuel garb h3 = OutOfFuel))) \/
  exists sig, snd (sign H fuel garb st I (key, pt ++ ct) msg) = Ok sig.
Proof. exact (any_total H I c nk OK key pt ct ct Hk Hp Hct right_len fuel garb st msg). Qed.
Lemma sign_accepted fuel garb st msg sig st' : sign H fuel garb st I (key, pt ++ ct) msg = (st', Ok sig) ->
  forall fuel2 garb2 st2, fuel <= fuel2 -> snd (verify H fuel2 garb2 st2 I (pt ++ ct) sig msg) = Ok true.
Proof.
  unfold sign, verify. rewrite (with_field_ok _ _ _ _ (io_field _ _ _ OK)). intros E fuel2 garb2 st2 Hf. injection E as _ E.
  rewrite (with_field_ok _ _ _ _ (io_field _ _ _ OK)). cbn [snd].
  destruct (valid_key I c nk key pt ct OK Hk Hp Hct) as (s & t & KO).
  destruct (lagr1 I c nk OK) as [pre1 G1]. destruct (lagr2 I c nk OK) as [pre2 G2].
  destruct (sign_run H I c nk OK pre1 pre2 G1 G2 key pt ct s t KO msg fuel garb) as [X|(D & sig' & X & RO)]; [destruct X as [X _]|]; rewrite X in E; [discriminate E|].
  injection E as ->. replace fuel2 with (fuel + (fuel2 - fuel)) by lia.
  apply (accepted H I c nk OK pre1 pre2 G1 G2 key pt ct s t KO msg fuel garb D sig RO).
Qed.
(** the result of sign has the prescribed sizes, stores the indices derived from its h_3 and survives serialization *)
Lemma sign_shape fuel garb st msg sig st' : sign H fuel garb st I (key, pt ++ ct) msg = (st', Ok sig) ->
  st' = Some c /\ sig_shape I sig /\
  forall fuel2 garb2, fuel <= fuel2 -> phase_3_expand H I fuel2 garb2 (s_h3 sig) = Ok (map (fun p => snd (p_reveal p)) (s_proofs sig)).
Proof. exact (any_shape H I c nk OK key pt ct ct Hk Hp Hct right_len fuel garb st msg sig st'). Qed.
Lemma sign_transport fuel garb st msg sig st' : sign H fuel garb st I (key, pt ++ ct) msg = (st', Ok sig) ->
  exists ser, serialize st' I sig = Ok ser /\ length ser = sig_size I /\
  forall fuel2 garb2, fuel <= fuel2 -> deserialize H fuel2 garb2 st' I ser = Ok sig.
Proof.
  intros E. destruct (sign_shape fuel garb st msg sig st' E) as (-> & S & M). destruct (serialize_ok I c (io_field _ _ _ OK) sig S) as (A & B & _).
  exists (enc_sig I sig). split; [exact A|]. split; [exact B|]. intros fuel2 garb2 Hf. apply (roundtrip_sig I c (io_field _ _ _ OK) H fuel2 garb2); auto; pose proof (n_pos I c nk OK); lia.
Qed.
End Api.
