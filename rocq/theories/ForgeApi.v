(** The forger of Forge at the level of the API: when it returns a signature and that banquet_verify accepts it. *)
From Coq Require Import Arith NArith ZArith List Bool Lia.
From Verif Require Import Prelude FieldModel FieldSpec FieldApi FieldLin PolyModel Instances HashModel TreeModel TreeSpec TreeApi TreeRev AesSpec AesModel AesBase AesApi AesShares BanquetModel ContainerModel ListSum BanquetHash BanquetPure BanquetVerify BanquetSign BanquetPoly BanquetCtx BanquetRun Serialize BanquetApi ChallengeFacts AlterFacts Forge ForgeAes ForgeRun FreeSpec.
Import ListNotations.

Lemma fake_t_ok I c nk pt ct : inst_ok I c nk -> str (pt_size I) pt -> str (pt_size I) ct ->
  exists t s, fake_t I pt ct = Ok t /\ str (num_sboxes (i_aes I)) t /\ Pn nk true (zeros (key_size (i_aes I))) t pt = (ct, s).
Proof.
  intros OK Hp Hc. unfold fake_t. rewrite (aes_shares_eq I c nk OK). rewrite (io_ks _ _ _ OK), (io_sb _ _ _ OK). rewrite (io_pt _ _ _ OK) in Hp, Hc.
  rewrite (s_shares_ok nk pt (io_nk _ _ _ OK) Hp) by (reflexivity || (constructor; [apply str_zeros|constructor])). cbn [combine map bind]. unfold get. cbn [nth_error bind].
  destruct (Pn_ok nk true (zeros (4 * nk)) (zeros (nsboxes nk)) pt (io_nk _ _ _ OK) (str_zeros _) (str_zeros _) Hp) as (_ & S0 & _).
  rewrite xor_into_ok by (rewrite (proj1 S0), (proj1 Hc); reflexivity). cbn [bind].
  destruct (fake_ok nk pt ct (io_nk _ _ _ OK) Hp Hc) as (A & s & B & _). eexists _, s. split; [reflexivity|]. split; [exact A|exact B].
Qed.

Section Api.
Variables (H : oracle) (I : instance) (c : fctx).
Hypothesis HB : regular I.
Hypothesis HI : init_extension_field (lambda I) = Ok c.
Variables (pk msg salt : bytes) (seeds : list bytes).
Hypothesis Hpk : str (2 * pt_size I) pk.
Hypothesis Hsalt : str SALT_SIZE salt.
Hypothesis Ls : length seeds = num_rounds I.
Hypothesis Hseeds : Forall (str (seed_size I)) seeds.

Lemma forge_cases fuel garb : 1 <= fuel ->
  (forge_points_drawn H fuel I pk msg salt seeds = OutOfFuel /\ forge H fuel garb I pk msg salt seeds = OutOfFuel /\
   exists h2 k, forall i, i < fuel -> In (R_candidate H I h2 (k + i)) (get_first_n_field_elements c (m2 I))) \/
  exists Rs, forge_points_drawn H fuel I pk msg salt seeds = Ok Rs /\ length Rs = num_rounds I /\
  (exists h2 k, Rs = filter (fun R => negb (existsb (N.eqb R) (get_first_n_field_elements c (m2 I)))) (map (R_candidate H I h2) (seq 0 k))) /\
  ((exists sig, forge H fuel garb I pk msg salt seeds = Ok sig /\ sig_shape I sig /\
     forall fuel' garb' st, fuel <= fuel' -> snd (verify H fuel' garb' st I pk sig msg) = Ok true) \/
   (forge H fuel garb I pk msg salt seeds = Throw ESanity /\ exists R, In R Rs /\ In R (get_first_n_field_elements c (2 * m2 I)))).
Proof.
  intros Hf. destruct (regular_inst_ok I HB) as (c' & OK). assert (c' = c) by (pose proof (io_field _ _ _ OK) as X; congruence). subst c'.
  assert (Epk : pk = firstn (pt_size I) pk ++ skipn (pt_size I) pk) by (symmetry; apply firstn_skipn).
  assert (Hp : str (pt_size I) (firstn (pt_size I) pk)).
  { split; [rewrite firstn_length, (proj1 Hpk); lia|apply is_bytes_firstn; apply Hpk]. }
  assert (Hc : str (pt_size I) (skipn (pt_size I) pk)).
  { split; [rewrite skipn_length, (proj1 Hpk); lia|apply is_bytes_skipn; apply Hpk]. }
  set (pt := firstn (pt_size I) pk) in *. set (ct := skipn (pt_size I) pk) in *. clearbody pt ct.
  destruct (fake_t_ok I c (nk_of I) pt ct OK Hp Hc) as (t & s & Ef & Ht & PO).
  destruct (lagr1 I c (nk_of I) OK) as (pre1 & G1). destruct (lagr2 I c (nk_of I) OK) as (pre2 & G2).
  unfold forge_points_drawn, forge. rewrite HI. cbn [bind]. rewrite Epk in *.
  destruct (commit_run H I c (nk_of I) OK (zeros (key_size (i_aes I))) pt ct t (str_zeros _) Hp Ht salt msg seeds Ls Hseeds Hc eq_refl Ef fuel)
    as [(A & B)|(trees & rss & Rs & A & P1 & P2 & P3 & P4 & P5 & P6 & P7)].
  - left. rewrite A. cbn [bind]. split; [reflexivity|]. split; [reflexivity|]. eexists. apply (phase_2_stuck H I c (nk_of I) fuel _ OK B).
  - right. rewrite A. cbn [bind f_Rs]. exists Rs. split; [reflexivity|]. split; [exact P6|].
    split; [destruct (R_challenges H I c fuel _ Rs HB HI P5) as (_ & _ & (k & X) & _); eexists _, k; exact X|].
    destruct (finish_run H I c (nk_of I) OK pre1 pre2 G1 G2 (zeros (key_size (i_aes I))) pt ct s t (str_zeros _) Hp Ht PO salt msg seeds Ls Hseeds Hc fuel trees rss Rs P1 P2 P3 P4 P5 P6 P7 garb)
      as [(_ & h3 & X)|[(sig & X & S & V)|(X & r & Hr & Y)]].
    + exfalso. exact (regular_phase3 H I fuel garb h3 HB Hf X).
    + left. exists sig. split; [exact X|]. split; [apply S; exact Hsalt|]. intros fuel' garb' st Hff. unfold verify. rewrite (with_field_ok st _ c _ HI). cbn [snd].
      replace fuel' with (fuel + (fuel' - fuel)) by lia. apply V.
    + right. split; [exact X|]. exists (nth r Rs 0%N). split; [apply nth_In; rewrite P6; exact Hr|exact Y].
Qed.
Lemma forged_accepted fuel garb sig : 1 <= fuel -> forge H fuel garb I pk msg salt seeds = Ok sig ->
  sig_shape I sig /\ forall fuel' garb' st, fuel <= fuel' -> snd (verify H fuel' garb' st I pk sig msg) = Ok true.
Proof.
  intros Hf E. destruct (forge_cases fuel garb Hf) as [(_ & X & _)|(Rs & _ & _ & _ & [(sig' & X & S & V)|(X & _)])]; rewrite X in E; try discriminate E.
  injection E as <-. split; assumption.
Qed.
Lemma forge_succeeds fuel garb Rs : 1 <= fuel -> forge_points_drawn H fuel I pk msg salt seeds = Ok Rs ->
  (forall R, In R Rs -> ~ In R (get_first_n_field_elements c (2 * m2 I))) -> exists sig, forge H fuel garb I pk msg salt seeds = Ok sig.
Proof.
  intros Hf E Hn. destruct (forge_cases fuel garb Hf) as [(X & _)|(Rs' & X & _ & _ & [(sig & Y & _)|(_ & R & A & B)])]; rewrite X in E; try discriminate E.
  - exists sig. exact Y.
  - injection E as ->. exfalso. exact (Hn R A B).
Qed.
Lemma points_drawn fuel : 1 <= fuel ->
  (exists Rs h2 k, forge_points_drawn H fuel I pk msg salt seeds = Ok Rs /\ length Rs = num_rounds I /\
     Rs = filter (fun R => negb (existsb (N.eqb R) (get_first_n_field_elements c (m2 I)))) (map (R_candidate H I h2) (seq 0 k))) \/
  (forge_points_drawn H fuel I pk msg salt seeds = OutOfFuel /\
   exists h2 k, forall i, i < fuel -> In (R_candidate H I h2 (k + i)) (get_first_n_field_elements c (m2 I))).
Proof.
  intros Hf. destruct (forge_cases fuel (fun _ => 0%N) Hf) as [(X & _ & Y)|(Rs & X & L & (h2 & k & Y) & _)]; [right; split; assumption|left; exists Rs, h2, k; auto].
Qed.
End Api.

(** no key encrypts two equal blocks to two different ones *)
Lemma keyless I key : regular I -> key_size (i_aes I) <> 16 -> ~ secret_key_for I keyless_pk key.
Proof.
  intros HB Hk (Lk & Bk & pt & Lp & Bp & E). destruct (regular_inst_ok I HB) as (c & OK).
  fold (nk_of I) in E. pose proof (io_ks _ _ _ OK) as Eks. pose proof (io_pt _ _ _ OK) as Ept. rewrite Ept in Lp. rewrite Eks in Lk.
  assert (Hnk : nk_of I = 6 \/ nk_of I = 8) by (destruct (io_nk _ _ _ OK) as [X|[X|[X|[]]]]; rewrite <- X in *; [exfalso; apply Hk; rewrite Eks; reflexivity|auto|auto]).
  assert (Hb : blocks (nk_of I) pt = [firstn 16 pt; skipn 16 pt]) by (destruct Hnk as [-> | ->]; reflexivity).
  assert (L32 : length pt = 32) by (rewrite Lp; destruct Hnk as [-> | ->]; reflexivity).
  assert (Ez : pt = zeros 32).
  { apply (f_equal (firstn 32)) in E. rewrite firstn_app, L32, Nat.sub_diag, app_nil_r, <- L32, firstn_all in E. rewrite L32 in E. symmetry. exact E. }
  rewrite Hb, Ez in E. apply app_inv_head in E. cbn [flat_map] in E. rewrite app_nil_r in E. change (skipn 16 (zeros 32)) with (zeros 16) in E. change (firstn 16 (zeros 32)) with (zeros 16) in E.
  set (x := cipher (nk_of I) key (zeros 16)) in *. clearbody x. assert (R : length x = 16) by (apply (f_equal (@length N)) in E; rewrite !app_length in E; cbn in E; lia).
  clear - E R. do 16 (destruct x as [|? x]; [discriminate R|]). destruct x; [|discriminate R]. cbn in E. injection E. intros. subst. discriminate.
Qed.

(** with the hash function whose output bytes are all 255 every point is 2^32 - 1, which is not among the first points *)
Definition I11 : instance := nth 11 instances (mkInst (mkAes 0 0 0 0) 0 0 0 0 0 0 0 0).
Definition all255 : oracle := fun _ _ _ => 255%N.
Lemma I11_builtin : builtin I11.
Proof. exists 11%Z. reflexivity. Qed.
Lemma I11_points c h2 k : init_extension_field (lambda I11) = Ok c -> ~ In (R_candidate all255 I11 h2 k) (get_first_n_field_elements c (2 * m2 I11)).
Proof.
  intros Ec. injection Ec as <-. change (R_candidate all255 I11 h2 k) with (from_bytes [255; 255; 255; 255]%N).
  intros X. vm_compute in X. repeat (destruct X as [X|X]; [discriminate X|]). exact X.
Qed.
Lemma I11_case msg : exists Rs sig, forge_points_drawn all255 1 I11 keyless_pk msg (zeros 32) (repeat (zeros (seed_size I11)) (num_rounds I11)) = Ok Rs /\
  (forall c R, init_extension_field (lambda I11) = Ok c -> In R Rs -> ~ In R (get_first_n_field_elements c (2 * m2 I11))) /\
  forge all255 1 (fun _ => 0%N) I11 keyless_pk msg (zeros 32) (repeat (zeros (seed_size I11)) (num_rounds I11)) = Ok sig /\ sig_shape I11 sig /\
  forall fuel garb st, 1 <= fuel -> snd (verify all255 fuel garb st I11 keyless_pk sig msg) = Ok true.
Proof.
  assert (Hc : exists c, init_extension_field (lambda I11) = Ok c) by (eexists; reflexivity). destruct Hc as (c & Hc).
  assert (Hpk : str (2 * pt_size I11) keyless_pk) by (split; [reflexivity|apply isbytesb_ok; reflexivity]).
  assert (Hs : str SALT_SIZE (zeros 32)) by apply str_zeros.
  assert (Hl : length (repeat (zeros (seed_size I11)) (num_rounds I11)) = num_rounds I11) by apply repeat_length.
  assert (Hf : Forall (str (seed_size I11)) (repeat (zeros (seed_size I11)) (num_rounds I11))).
  { apply Forall_forall. intros x Hx. apply repeat_spec in Hx. subst x. apply str_zeros. }
  destruct (points_drawn all255 I11 c (builtin_regular _ I11_builtin) Hc keyless_pk msg (zeros 32) _ Hpk Hs Hl Hf 1 (le_n 1)) as [(Rs & h2 & k & X & L & Y)|(_ & h2 & k & X)].
  2:{ exfalso. specialize (X 0 (le_n 1)). apply (I11_points c h2 (k + 0) Hc). clear - X. unfold get_first_n_field_elements in *.
      assert (G : forall a b g x, a <= b -> In x (first_elements_loop c a g) -> In x (first_elements_loop c b g)); [|revert X; apply G; lia].
      induction a; intros b g x Hab; [contradiction|]. destruct b; [lia|]. cbn [first_elements_loop]. intros [Q|Q]; [left; exact Q|right]. apply IHa; [lia|exact Q]. }
  assert (HR : forall R, In R Rs -> ~ In R (get_first_n_field_elements c (2 * m2 I11))).
  { intros R HR. rewrite Y in HR. apply filter_In in HR. destruct HR as [HR _]. apply in_map_iff in HR. destruct HR as (i & <- & _). apply I11_points. exact Hc. }
  destruct (forge_succeeds all255 I11 c (builtin_regular _ I11_builtin) Hc keyless_pk msg (zeros 32) _ Hpk Hs Hl Hf 1 (fun _ => 0%N) Rs (le_n 1) X HR) as (sig & Z).
  exists Rs, sig. split; [exact X|]. split; [intros c' R Hc' HIn; assert (c' = c) by congruence; subst c'; apply HR; exact HIn|]. split; [exact Z|].
  apply (forged_accepted all255 I11 c (builtin_regular _ I11_builtin) Hc keyless_pk msg (zeros 32) _ Hpk Hs Hl Hf 1 (fun _ => 0%N) sig (le_n 1) Z).
Qed.
