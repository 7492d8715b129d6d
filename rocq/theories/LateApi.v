(** How many hash outputs keep signing, verification and key generation drawing (C77). *)
From Coq Require Import Arith NArith ZArith List Bool Lia.
From Verif Require Import Prelude FieldModel FieldApi FieldSpec Instances HashModel TreeModel AesSpec AesBase AesApi AesShares BanquetModel ContainerModel ListSum BanquetHash BanquetPure BanquetVerify BanquetSign BanquetCtx Serialize BanquetApi ChallengeFacts SigSpec VerifyOutcome AcceptFacts FreeSafe FreeApi History Unbias UnbiasApi UnbiasKey DetermFacts FreeSpec LateSpec LateFacts.
Import ListNotations.

Lemma filter_cong {X} (P Q : X -> bool) l : (forall x, In x l -> P x = Q x) -> filter P l = filter Q l.
Proof.
  induction l as [|x l IH]; intros E; [reflexivity|]. cbn [filter]. rewrite (E x) by (left; reflexivity). rewrite IH by (intros y Hy; apply E; right; exact Hy). reflexivity.
Qed.

(** *** evaluation points *)
Lemma point_late I c q : proper I -> init_extension_field (lambda I) = Ok c -> m2 I <= 256 ^ lambda I /\ exists l, NoDup l /\
  (forall s, In s l <-> str (q * lambda I) s /\ length (filter (allowed_point I c) (point_cands I q s)) < num_rounds I) /\
  length l = late (256 ^ lambda I - m2 I) (m2 I) (num_rounds I) q.
Proof.
  intros P Hc. destruct (proper_any I P) as [c' OK].
  assert (c' = c) by (pose proof (io_field _ _ _ OK) as X; rewrite Hc in X; injection X as <-; reflexivity). subst c'.
  destruct (api_points _ _ Hc (m2 I) (points_ok I c _ OK (m2 I) ltac:(lia))) as (ND & L & F). set (forb := get_first_n_field_elements c (m2 I)) in *.
  assert (Hb : length (filter (fun x => negb (allowed_point I c (le_word x))) (all_strings (lambda I))) = m2 I).
  { rewrite <- L at 1. rewrite <- (Nat.mul_1_r (length forb)).
    etransitivity; [|apply (count_values N.eq_dec (all_strings (lambda I)) le_word 1 forb ND)].
    - f_equal. apply filter_same. intros s. unfold allowed_point. rewrite negb_involutive. fold forb. clear. induction forb as [|x l IH]; [reflexivity|]. cbn [existsb]. rewrite IH. f_equal.
      apply eq_true_iff_eq. rewrite eqB_true, N.eqb_eq. reflexivity.
    - intros v Hv. apply fibre_elem. rewrite Forall_forall in F. destruct (F v Hv) as [_ X]. unfold elt in X.
      change 256%N with (2 ^ 8)%N. rewrite <- N.pow_mul_r. exact X. }
  assert (SP : length (filter (fun x => allowed_point I c (le_word x)) (all_strings (lambda I))) + length (filter (fun x => negb (allowed_point I c (le_word x))) (all_strings (lambda I))) = 256 ^ lambda I)
    by (etransitivity; [apply filter_split|apply length_all_strings]).
  rewrite Hb in SP. split; [lia|].
  apply (late_strings N (lambda I) le_word (allowed_point I c)); [lia|exact Hb].
Qed.
(** *** opened parties *)
Lemma party_late I q : 1 <= num_parties I -> (N.of_nat (num_parties I) < 65536)%N ->
  let w := if 256 <? num_parties I then 2 else 1 in let k := Nat.log2_up (num_parties I) in exists l, NoDup l /\
  (forall s, In s l <-> str (q * w) s /\ length (filter (fun p => p <? num_parties I) (party_cands I q s)) < num_rounds I) /\
  length l = late (num_parties I * 2 ^ (8 * w - k)) ((2 ^ k - num_parties I) * 2 ^ (8 * w - k)) (num_rounds I) q.
Proof.
  intros H1 H2 w k.
  assert (Hk : k <= 8 * w).
  { unfold k, w. destruct (Nat.ltb_spec 256 (num_parties I)); [exact (log_le16 I H1 H2)|]. apply Nat.log2_up_le_pow2; [lia|]. change (2 ^ (8 * 1)) with 256. assumption. }
  assert (Hn : num_parties I <= 2 ^ k) by (apply Nat.log2_up_le_pow2; [lia|apply le_n]).
  assert (Ha : length (filter (fun x => party_of k x <? num_parties I) (all_strings w)) = num_parties I * 2 ^ (8 * w - k)).
  { transitivity (length (seq 0 (num_parties I)) * 2 ^ (8 * w - k)); [|rewrite seq_length; reflexivity]. etransitivity; [|apply (count_values Nat.eq_dec (all_strings w) (party_of k) (2 ^ (8 * w - k)) (seq 0 (num_parties I)) (seq_NoDup _ _))].
    - f_equal. apply filter_same. intros s. apply eq_true_iff_eq. rewrite Nat.ltb_lt, existsb_exists. split.
      + intros X. exists (party_of k s). split; [apply in_seq; lia|apply eqB_true; reflexivity].
      + intros (x & Hx & E). apply eqB_true in E. apply in_seq in Hx. lia.
    - intros v Hv. apply in_seq in Hv. apply fibre_party; [exact Hk|lia]. }
  apply (late_strings nat w (party_of k) (fun p => p <? num_parties I)); [exact Ha|].
  assert (SP : length (filter (fun x => party_of k x <? num_parties I) (all_strings w)) + length (filter (fun x => negb (party_of k x <? num_parties I)) (all_strings w)) = 256 ^ w)
    by (etransitivity; [apply filter_split|apply length_all_strings]).
  rewrite Ha in SP.
  assert (E : 256 ^ w = 2 ^ k * 2 ^ (8 * w - k)) by (rewrite <- Nat.pow_add_r; change 256 with (2 ^ 8); rewrite <- Nat.pow_mul_r; f_equal; lia).
  rewrite Nat.mul_sub_distr_r. lia.
Qed.

(** *** verification *)
Definition few_points (H : oracle) (I : instance) (c : fctx) (h2 : bytes) (q : nat) : Prop :=
  length (filter (allowed_point I c) (point_cands I q (stream H (digest_size I =? 32) h2 0 (q * lambda I)))) < num_rounds I.
Definition few_parties (H : oracle) (I : instance) (h3 : bytes) (q : nat) : Prop :=
  length (filter (fun p => p <? num_parties I) (party_cands I q (stream H (digest_size I =? 32) h3 0 (q * (if 256 <? num_parties I then 2 else 1))))) < num_rounds I.
Lemma points_late H I c fuel h2 q : proper I -> init_extension_field (lambda I) = Ok c -> q <= fuel ->
  phase_2_expand H I c fuel h2 (get_first_n_field_elements c (m2 I)) = OutOfFuel -> few_points H I c h2 q.
Proof.
  intros P Hc Hq E. unfold few_points. apply Nat.lt_nge. intros G. revert E. rewrite (phase_2_drawn H I c fuel h2 q P Hc Hq); [discriminate|].
  unfold drawn. rewrite firstn_length. lia.
Qed.
Lemma parties_late H I fuel garb h3 q : proper I -> q <= fuel -> phase_3_expand H I fuel garb h3 = OutOfFuel -> few_parties H I h3 q.
Proof.
  intros P Hq E. destruct (pr_parties _ P) as [H2 HN]. unfold few_parties. apply Nat.lt_nge. intros G. revert E. rewrite (phase_3_drawn H I fuel garb h3 q ltac:(lia) HN Hq); [discriminate|].
  unfold drawn. rewrite firstn_length. lia.
Qed.
Lemma verify_late H I c fuel garb st pk sig msg q : proper I -> init_extension_field (lambda I) = Ok c -> sig_shape I sig -> str (2 * pt_size I) pk -> q <= fuel ->
  snd (verify H fuel garb st I pk sig msg) = OutOfFuel -> few_points H I c (h2_of H I sig) q \/ few_parties H I (s_h3 sig) q.
Proof.
  intros P Hc SS Hpk Hq E. destruct (proper_any I P) as [c' OK].
  assert (c' = c) by (pose proof (io_field _ _ _ OK) as X; rewrite Hc in X; injection X as <-; reflexivity). subst c'.
  destruct (pr_parties _ P) as [H2 HN]. assert (N1 : 1 <= num_parties I) by lia.
  destruct (phase_2_expand H I c fuel (h2_of H I sig) (get_first_n_field_elements c (m2 I))) as [l|x|u|] eqn:EP.
  2,3: exfalso; destruct (phase_2_outcome H I N1 c Hc fuel (h2_of H I sig)) as [Z|(l & Z & _)];
    [apply (points_ok I c _ OK); lia|rewrite EP in Z; discriminate Z|rewrite EP in Z; discriminate Z].
  2:{ left. exact (points_late H I c fuel _ q P Hc Hq EP). }
  destruct (phase_3_outcome H I N1 fuel garb (s_h3 sig)) as [E3|(ms & E3 & LM & FM & _)]; [right; exact (parties_late H I fuel garb _ q P Hq E3)|].
  exfalso. revert E. unfold verify. rewrite (with_field_ok _ _ _ _ Hc). cbn [snd].
  destruct (all_or_one (fun e => snd (p_reveal (pf_of sig e)) =? nth e ms 0) (num_rounds I)) as [A|(e & He & A)].
  - destruct (lagr1 I c _ OK) as [pre1 G1]. destruct (lagr2 I c _ OK) as [pre2 G2].
    destruct (trans_any H I c _ sig pk fuel garb l ms OK SS Hpk EP E3) as [X TR].
    rewrite (body_any H I c _ OK sig pk SS Hpk X fuel garb msg l ms E3 TR EP) with (pre1 := pre1) (pre2 := pre2); [discriminate| |exact G1|exact G2].
    intros e He. rewrite (proj1 (Nat.eqb_eq _ _) (A e He)), (ms_eq H I c _ OK sig pk X fuel garb ms E3 TR). rewrite (nth_map_seq (fun e => x_hidden (X e)) (num_rounds I) e 0 He). reflexivity.
  - apply Nat.eqb_neq in A. unfold verify_body. rewrite (contexts_modified H I c _ OK sig pk SS Hpk fuel garb msg l ms EP E3 LM FM); [|exists e; auto]. cbn [bind]. discriminate.
Qed.

(** *** signing *)
Lemma mapM_get {A B} (f : nat -> res B) (g : B -> A) (ds : list A) n l : length ds = n -> (forall r b, f r = Ok b -> get ds r = Ok (g b)) -> mapM f (seq 0 n) = Ok l -> map g l = ds.
Proof.
  intros L F E. destruct ds as [|d0 ds'] eqn:Ed.
  - cbn in L. subst n. cbn in E. injection E as <-. reflexivity.
  - rewrite <- Ed in *. clear Ed. apply list_eq_nth.
    + rewrite map_length, (mapM_length _ _ _ E), seq_length. symmetry. exact L.
    + intros i Hi d. rewrite map_length, (mapM_length _ _ _ E), seq_length in Hi. destruct l as [|b0 l']; [apply mapM_length in E; rewrite seq_length in E; cbn in E; lia|]. 
      destruct (mapM_seq_inv f n (b0 :: l') b0 E) as [LL G]. specialize (F i _ (G i Hi)). rewrite (get_ok ds i d) in F by lia. injection F as F.
      rewrite F. rewrite (nth_indep _ d (g b0)) by (rewrite map_length; lia). apply map_nth.
Qed.
Lemma sign_body_again H I c fuel garb kp msg sig : sign_body H I c fuel garb kp msg = Ok sig ->
  exists h2, phase_2_commitment H I c (s_salt sig) (s_h1 sig) (map p_P_delta (s_proofs sig)) = Ok h2 /\
  forall fuel2 garb2, sign_body H I c fuel2 garb2 kp msg = Ok sig \/
    phase_2_expand H I c fuel2 h2 (get_first_n_field_elements c (m2 I)) = OutOfFuel \/ phase_3_expand H I fuel2 garb2 (s_h3 sig) = OutOfFuel.
Proof.
  unfold sign_body. cbv zeta. destruct (generate_salt_and_seeds H I kp msg) as [salt seeds]. intros E.
  apply bind_ok in E; destruct E as (pt & E1 & E). apply bind_ok in E; destruct E as (ct & E2 & E). apply bind_ok in E; destruct E as (sb & E3 & E).
  apply bind_ok in E; destruct E as (setup & E4 & E). apply bind_ok in E; destruct E as (ph1 & E5 & E). apply bind_ok in E; destruct E as (h1 & E6 & E).
  apply bind_ok in E; destruct E as (rss & E7 & E). apply bind_ok in E; destruct E as (pre1 & E8 & E). apply bind_ok in E; destruct E as (pre2 & E9 & E).
  apply bind_ok in E; destruct E as (ll & E10 & E). apply bind_ok in E; destruct E as (lsq & E11 & E). apply bind_ok in E; destruct E as (prods & E12 & E).
  apply bind_ok in E; destruct E as (ph3 & E13 & E). apply bind_ok in E; destruct E as (h2 & E14 & E). apply bind_ok in E; destruct E as (Rs & E15 & E).
  apply bind_ok in E; destruct E as (ph5 & E16 & E). apply bind_ok in E; destruct E as (h3 & E17 & E). apply bind_ok in E; destruct E as (ms & E18 & E).
  apply bind_ok in E; destruct E as (rv & E19 & E). apply bind_ok in E; destruct E as (pfs & E20 & E). injection E as <-. exists h2. cbn [s_salt s_h1 s_h3 s_proofs]. split.
  - rewrite <- E14. f_equal. eapply (mapM_get _ p_P_delta); [|clear E14; intros r b Hb|exact E20].
    + rewrite map_length, (mapM_length _ _ _ E13), seq_length. reflexivity.
    + repeat (apply bind_ok in Hb; destruct Hb as (? & ? & Hb)). destruct (_ =? _)%N; [|discriminate Hb]. injection Hb as <-. cbn [p_P_delta].
      match goal with X : get ph3 r = Ok ?p |- _ => unfold get in *; rewrite nth_error_map; destruct (nth_error ph3 r); [injection X as ->; reflexivity|discriminate X] end.
  - intros fuel2 garb2. rewrite E1. cbn [bind]. rewrite E2. cbn [bind]. rewrite E3. cbn [bind]. rewrite E4. cbn [bind]. rewrite E5. cbn [bind]. rewrite E6. cbn [bind].
    rewrite E7. cbn [bind]. rewrite E8. cbn [bind]. rewrite E9. cbn [bind]. rewrite E10. cbn [bind]. rewrite E11. cbn [bind]. rewrite E12. cbn [bind]. rewrite E13. cbn [bind].
    rewrite E14. cbn [bind].
    assert (A2 : phase_2_expand H I c fuel2 h2 (get_first_n_field_elements c (m2 I)) = OutOfFuel \/ phase_2_expand H I c fuel2 h2 (get_first_n_field_elements c (m2 I)) = Ok Rs).
    { destruct (phase_2_upto H I c fuel2 fuel h2 (get_first_n_field_elements c (m2 I))) as [X|X]; [left; exact X|]. right. rewrite X, Nat.add_comm.
      destruct (phase_2_upto H I c fuel fuel2 h2 (get_first_n_field_elements c (m2 I))) as [Y|Y]; rewrite E15 in Y; [discriminate Y|]. symmetry. exact Y. }
    assert (A3 : phase_3_expand H I fuel2 garb2 h3 = OutOfFuel \/ phase_3_expand H I fuel2 garb2 h3 = Ok ms).
    { destruct (phase_3_upto H I fuel2 fuel garb2 garb h3) as [X|X]; [left; exact X|]. right. rewrite X, Nat.add_comm.
      destruct (phase_3_upto H I fuel fuel2 garb garb h3) as [Y|Y]; rewrite E18 in Y; [discriminate Y|]. symmetry. exact Y. }
    destruct A2 as [A2|A2]; [right; left; exact A2|]. destruct A3 as [A3|A3]; [right; right; exact A3|]. left.
    rewrite A2. cbn [bind]. rewrite E16. cbn [bind]. rewrite E17. cbn [bind]. rewrite A3. cbn [bind]. rewrite E19. cbn [bind]. rewrite E20. reflexivity.
Qed.
Lemma sign_late H I c kf r kp fuel garb st st' msg sig fuel2 garb2 st2 q : proper I -> near_power (num_parties I) -> init_extension_field (lambda I) = Ok c -> rng_bytes r -> keygen kf I r = Ok kp ->
  sign H fuel garb st I kp msg = (st', Ok sig) -> q <= fuel2 ->
  snd (sign H fuel2 garb2 st2 I kp msg) = Ok sig \/ few_points H I c (h2_of H I sig) q \/ few_parties H I (s_h3 sig) q.
Proof.
  intros P NP Hc HR EK ES Hq. destruct (free_cases I kf r kp P NP HR EK) as (c' & key & pt & ct & OK & -> & Hk & Hp & Hct).
  assert (c' = c) by (pose proof (io_field _ _ _ OK) as X; rewrite Hc in X; injection X as <-; reflexivity). subst c'.
  destruct (sign_shape H I c (nk_of I) OK key pt ct Hk Hp Hct fuel garb st msg sig st' ES) as (_ & SS & _).
  unfold sign in ES |- *. rewrite (with_field_ok _ _ _ _ Hc). rewrite (with_field_ok _ _ _ _ Hc) in ES. injection ES as _ ES. cbn [snd].
  destruct (sign_body_again H I c fuel garb _ msg sig ES) as (h2 & E2 & A).
  assert (Eh : h2 = h2_of H I sig).
  { rewrite (proofs_eq I sig SS) in E2. rewrite map_map in E2. rewrite (phase_2_commitment_ok H I c (nk_of I) OK (s_salt sig) (s_h1 sig) (fun r => p_P_delta (pf_of sig r))) in E2.
    - injection E2 as <-. apply h2_eq.
    - intros e He. pose proof (proj1 (ps_P _ _ (pf_shape I sig SS e He))). lia. }
  subst h2. destruct (A fuel2 garb2) as [B|[B|B]]; [left; exact B|right; left|right; right].
  - exact (points_late H I c fuel2 _ q P Hc Hq B).
  - exact (parties_late H I fuel2 garb2 _ q P Hq B).
Qed.

(** *** keys *)
(** a key and a plaintext without zero S-box inputs *)
Definition some_pair (i ks ps : nat) : bytes :=
  map (fun j => (N.of_nat i * (N.of_nat j + 1) mod 256)%N) (seq 0 ks) ++ map (fun j => ((255 + 253 * N.of_nat i * (N.of_nat j + 1)) mod 256)%N) (seq 0 ps).
Lemma some_pair_str i ks ps : str (ks + ps) (some_pair i ks ps).
Proof.
  unfold some_pair. split; [rewrite app_length, !map_length, !seq_length; reflexivity|].
  apply is_bytes_app; apply Forall_forall; intros x Hx; apply in_map_iff in Hx; destruct Hx as (j & <- & _); apply N.mod_lt; discriminate.
Qed.
Lemma good_pair I : proper I -> exists a, str (key_size (i_aes I) + block_size (i_aes I) * num_blocks (i_aes I)) a /\ key_good I a = true.
Proof.
  intros P. destruct (pr_aes _ P) as [E|[E|[E|[]]]]; unfold key_good, nk_of; rewrite <- E; cbn [key_size block_size num_blocks].
  - exists (some_pair 1 16 16). split; [apply some_pair_str|]. vm_cast_no_check (eq_refl true).
  - exists (some_pair 10 24 32). split; [apply some_pair_str|]. vm_cast_no_check (eq_refl true).
  - exists (some_pair 2 32 32). split; [apply some_pair_str|]. vm_cast_no_check (eq_refl true).
Qed.
Lemma key_late I : regular I ->
  let ks := key_size (i_aes I) in let ps := block_size (i_aes I) * num_blocks (i_aes I) in let nk := ks / 4 in
  exists lb, NoDup lb /\ (forall a, In a lb <-> str (ks + ps) a /\ In 0%N (all_sbox_inputs nk (firstn ks a) (blocks nk (skipn ks a)))) /\ length lb < 256 ^ (ks + ps) /\
  forall q, exists l, NoDup l /\ length l = length lb ^ q /\
  forall s, In s l <-> str (q * (ks + ps)) s /\ keygen q I (from_bytes_of ks ps s) = OutOfFuel.
Proof.
  intros HB ks ps nk. destruct (regular_inst_ok I HB) as [c OK].
  assert (Z : forall a, str (ks + ps) a -> (key_good I a = false <-> In 0%N (all_sbox_inputs nk (firstn ks a) (blocks nk (skipn ks a))))).
  { intros a Ha. destruct (str_firstn_app ks ps a Ha) as [S1 S2]. pose proof (inst_aes_in I c _ _ _ OK S1 S2) as Hin. pose proof (aes_none _ _ _ Hin) as X. change (nk_of I) with nk in X. rewrite <- X.
    unfold key_good. change (nk_of I) with nk. change (key_size (i_aes I)) with ks. destruct (aes_n nk (firstn ks a) (skipn ks a)); split; congruence. }
  exists (filter (fun a => negb (key_good I a)) (all_strings (ks + ps))). split; [apply NoDup_filter, NoDup_tuples, NoDup_all_bytes|]. split; [|split].
  - intros a. etransitivity; [apply filter_In|]. rewrite in_all_strings, negb_true_iff. split; intros [A B]; (split; [exact A|apply (Z a A); exact B]).
  - assert (SP : length (filter (fun a => key_good I a) (all_strings (ks + ps))) + length (filter (fun a => negb (key_good I a)) (all_strings (ks + ps))) = 256 ^ (ks + ps))
      by (etransitivity; [apply filter_split|apply length_all_strings]).
    destruct (good_pair I (rg_proper _ HB)) as (a & Ha & Ga). enough (0 < length (filter (fun a => key_good I a) (all_strings (ks + ps)))) by lia.
    assert (In a (filter (fun a => key_good I a) (all_strings (ks + ps)))) as X by (apply filter_In; split; [apply in_all_strings; exact Ha|exact Ga]).
    destruct (filter (fun a => key_good I a) (all_strings (ks + ps))); [destruct X|cbn [length]; lia].
  - intros q. destruct (late_strings bytes (ks + ps) (fun a => a) (key_good I) _ _ eq_refl eq_refl 1 q) as (l & ND & IN & C). exists l. split; [exact ND|]. split; [rewrite C; apply late_one|].
    intros s. rewrite IN. split; intros [Hs D]; (split; [exact Hs|]).
    + unfold keygen. etransitivity; [exact (key_loop I c OK q s q 0 _ _ (repeat_length _ _) (repeat_length _ _) Hs (le_n q))|].
      change (map (fun k => window (ks + ps) s k) (seq 0 q)) with (map (window (ks + ps) s) (seq 0 q)) in D.
      change (pt_size I) with ps. change (key_size (i_aes I)) with ks. destruct (filter (key_good I) (map (window (ks + ps) s) (seq 0 q))); [reflexivity|cbn [length] in D; lia].
    + unfold keygen in D. apply (eq_trans (eq_sym (key_loop I c OK q s q 0 _ _ (repeat_length _ _) (repeat_length _ _) Hs (le_n q)))) in D.
      change (map (fun k => window (ks + ps) s k) (seq 0 q)) with (map (window (ks + ps) s) (seq 0 q)).
      change (pt_size I) with ps in D. change (key_size (i_aes I)) with ks in D. destruct (filter (key_good I) (map (window (ks + ps) s) (seq 0 q))); [cbn [length]; lia|discriminate D].
Qed.

(** *** how many they are at most *)
Lemma late_share a b s T d : a + b = s -> late a b T (T + d) * s ^ (d + 1) <= choose (T + d) (d + 1) * b ^ (d + 1) * s ^ (T + d).
Proof.
  intros <-. destruct T as [|T]; [rewrite late_0; lia|]. pose proof (late_bound a b (S T + d) d (S T) eq_refl) as X.
  replace ((a + b) ^ (S T + d)) with ((a + b) ^ (S T + d - (d + 1)) * (a + b) ^ (d + 1)) by (rewrite <- Nat.pow_add_r; f_equal; lia). rewrite Nat.mul_assoc. apply Nat.mul_le_mono_r. exact X.
Qed.
