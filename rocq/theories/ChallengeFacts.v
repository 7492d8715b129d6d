(** What the challenge expansions compute: rejection sampling from the hash output, position by position. *)
From Coq Require Import Arith NArith ZArith List Bool Lia.
From Verif Require Import Prelude FieldModel FieldApi Points FieldSpec Instances HashModel TreeModel BanquetModel BanquetHash BanquetPure BanquetApi FreeSpec.
Import ListNotations.

(** the acceptable ones among the candidates number 0, ..., M-1 *)
Definition accepted_of {A} (cand : nat -> A) (good : A -> bool) (M : nat) : list A := filter good (map cand (seq 0 M)).
(** party candidate number k in the output for digest h: one byte, or two for more than 256 parties, cut to the number of
    bits of N - 1 *)
Definition party_candidate (H : oracle) (I : instance) (h : bytes) (k : nat) : nat :=
  let w := if 256 <? num_parties I then 2 else 1 in
  N.to_nat (le_word (stream H (digest_size I =? 32) h (k * w) w) mod 2 ^ N.of_nat (Nat.log2_up (num_parties I))).

Section Parties.
Variables (H : oracle) (I : instance).
Hypothesis HN1 : 1 <= num_parties I.
Hypothesis HN2 : (N.of_nat (num_parties I) < 65536)%N.
Variables (v : bool) (m : bytes).
Notation sz := (squeeze_size I).
Definition cand_at (k : nat) : nat := N.to_nat (le_word (stream H v m (k * sz) sz) mod 2 ^ N.of_nat (Nat.log2_up (num_parties I))).
Notation good := (fun p => p <? num_parties I).

Lemma log_le16 : Nat.log2_up (num_parties I) <= 16.
Proof.
  apply Nat.log2_up_le_pow2; [lia|]. replace (2 ^ 16) with (N.to_nat 65536); [lia|].
  change 65536%N with (2 ^ 16)%N. rewrite N2Nat.inj_pow. reflexivity.
Qed.
Lemma land_mask x : N.land x (party_mask I) = (x mod 2 ^ N.of_nat (Nat.log2_up (num_parties I)))%N.
Proof.
  unfold party_mask. rewrite ceil_log2_nat_spec by (lia || (apply (N.lt_trans _ 65536); [exact HN2|reflexivity])).
  pose proof log_le16 as L. assert (P : (2 ^ N.of_nat (Nat.log2_up (num_parties I)) <= 2 ^ 16)%N) by (apply N.pow_le_mono_r; lia).
  change (2 ^ 16)%N with 65536%N in P. assert (Q : (2 ^ N.of_nat (Nat.log2_up (num_parties I)) <> 0)%N) by (apply N.pow_nonzero; discriminate).
  rewrite N.mod_small by lia. rewrite <- N.pred_sub. rewrite <- N.ones_equiv. apply N.land_ones.
Qed.
Lemma land_byte b hi : sz = 1 -> N.land (le_word b + 256 * hi) (party_mask I) = N.land (le_word b) (party_mask I).
Proof.
  intros S1. assert (HN : (N.of_nat (num_parties I) <= 256)%N) by (destruct (squeeze_size_cases I HN1) as [[S2 _]|[_ HN]]; [rewrite S1 in S2; discriminate S2|exact HN]).
  pose proof (party_mask_small I HN1 HN) as M. rewrite (land_low (le_word b + 256 * hi)%N) by exact M. rewrite (land_low (le_word b)) by exact M.
  rewrite (N.mul_comm 256), N.mod_add by discriminate. reflexivity.
Qed.
Lemma sample_party_filter fuel : forall hi k p ctx', sample_party H I fuel hi (mkCtx v m (Some (k * sz))) = Ok (p, ctx') ->
  exists n, ctx' = mkCtx v m (Some ((k + n) * sz)) /\ filter good (map cand_at (seq k n)) = [p].
Proof.
  induction fuel as [|f IH]; intros hi k p ctx' E; [discriminate E|]. cbn [sample_party hash_squeeze h_v h_in h_off] in E.
  assert (EX : N.land (if sz =? 2 then le_word (stream H v m (k * sz) sz) else (le_word (stream H v m (k * sz) sz) + 256 * hi)%N) (party_mask I) =
     (le_word (stream H v m (k * sz) sz) mod 2 ^ N.of_nat (Nat.log2_up (num_parties I)))%N).
  { destruct (squeeze_size_cases I HN1) as [[-> _]|[S1 _]]; [cbn [Nat.eqb]; apply land_mask|].
    rewrite S1. cbn [Nat.eqb]. rewrite land_byte by exact S1. apply land_mask. }
  rewrite EX in E. replace (k * sz + sz) with ((k + 1) * sz) in E by lia. fold (cand_at k) in E.
  assert (C : (N.of_nat (num_parties I) <=? le_word (stream H v m (k * sz) sz) mod 2 ^ N.of_nat (Nat.log2_up (num_parties I)))%N = negb (cand_at k <? num_parties I)).
  { unfold cand_at. set (z := (_ mod _)%N). destruct (N.leb_spec (N.of_nat (num_parties I)) z), (Nat.ltb_spec (N.to_nat z) (num_parties I)); cbn; lia. }
  rewrite C in E. destruct (cand_at k <? num_parties I) eqn:G; cbn [negb] in E.
  - injection E as <- <-. exists 1. split; [reflexivity|]. cbn [seq map filter]. rewrite G. reflexivity.
  - destruct (IH _ _ _ _ E) as (n & -> & F). exists (S n). split; [do 2 f_equal; lia|]. cbn [seq map filter]. rewrite G. rewrite Nat.add_1_r in F. exact F.
Qed.
Lemma sample_parties_filter fuel garb n : forall e k l, sample_parties H I fuel garb e n (mkCtx v m (Some (k * sz))) = Ok l ->
  exists M, l = filter good (map cand_at (seq k M)) /\ length l = n.
Proof.
  induction n; intros e k l E; cbn [sample_parties] in E; [injection E as <-; exists 0; auto|].
  destruct (sample_party H I fuel (garb e mod 256)%N (mkCtx v m (Some (k * sz)))) as [[p ctx']| | |] eqn:E1; cbn [bind] in E; try discriminate E.
  destruct (sample_party_filter _ _ _ _ _ E1) as (a & -> & F1).
  destruct (sample_parties H I fuel garb (S e) n (mkCtx v m (Some ((k + a) * sz)))) as [ps| | |] eqn:E2; cbn [bind] in E; try discriminate E. injection E as <-.
  destruct (IHn _ _ _ E2) as (b & -> & L). exists (a + b). rewrite seq_app, map_app, filter_app, F1. cbn [app length]. auto.
Qed.
End Parties.

Lemma phase_3_filter H I fuel garb h3 l : 1 <= num_parties I -> (N.of_nat (num_parties I) < 65536)%N -> phase_3_expand H I fuel garb h3 = Ok l ->
  length l = num_rounds I /\ exists M, l = accepted_of (party_candidate H I h3) (fun p => p <? num_parties I) M.
Proof.
  intros H1 H2 E. unfold phase_3_expand in E. change (hash_final (hash_update (hash_init (digest_size I)) h3)) with (mkCtx (digest_size I =? 32) h3 (Some (0 * squeeze_size I))) in E.
  destruct (sample_parties_filter H I H1 H2 _ _ _ _ _ _ _ _ E) as (M & -> & L). split; [exact L|]. exists M. reflexivity.
Qed.

Section Field.
Variables (H : oracle) (I : instance) (c : fctx).
Hypothesis HI : init_extension_field (lambda I) = Ok c.
Variables (v : bool) (m : bytes).
Definition relt (k : nat) : N := from_bytes (stream H v m (k * lambda I) (lambda I)).
Lemma squeeze_elem_eq k : elem_at c (stream H v m (k * lambda I) (lambda I)) 0 = Ok (relt k).
Proof.
  rewrite (elem_at_ok I c HI) by (rewrite stream_length; lia). unfold relt, slice. cbn [skipn]. rewrite firstn_all2 by (rewrite stream_length; lia). reflexivity.
Qed.
Lemma squeeze_elems_eq n : forall k, squeeze_elems H I c n (mkCtx v m (Some (k * lambda I))) = Ok (map relt (seq k n), mkCtx v m (Some ((k + n) * lambda I))).
Proof.
  induction n; intros k; [rewrite Nat.add_0_r; reflexivity|]. cbn [squeeze_elems hash_squeeze h_v h_in h_off]. rewrite squeeze_elem_eq. cbn [bind].
  replace (k * lambda I + lambda I) with (S k * lambda I) by lia. rewrite IHn. cbn [bind seq map]. replace (k + S n) with (S k + n) by lia. reflexivity.
Qed.
Lemma squeeze_rows_eq t : forall k, squeeze_rows H I c t (mkCtx v m (Some (k * lambda I))) = Ok (map (fun e => map relt (seq (k + e * m1 I) (m1 I))) (seq 0 t)).
Proof.
  induction t; intros k; [reflexivity|]. cbn [squeeze_rows]. rewrite squeeze_elems_eq. cbn [bind]. rewrite IHt. cbn [bind seq map]. f_equal. f_equal.
  - rewrite Nat.add_0_r. reflexivity.
  - rewrite <- seq_shift, map_map. apply map_ext. intros e. do 2 f_equal. cbn [Nat.mul]. lia.
Qed.
Variable forb : list N.
Hypothesis Lf : length forb = m2 I.
Notation good := (fun x => negb (existsb (N.eqb x) forb)).
Lemma sample_R_filter fuel : forall k x ctx', sample_R H I c fuel forb (mkCtx v m (Some (k * lambda I))) = Ok (x, ctx') ->
  exists n, ctx' = mkCtx v m (Some ((k + n) * lambda I)) /\ filter good (map relt (seq k n)) = [x].
Proof.
  induction fuel as [|f IH]; intros k x ctx' E; [discriminate E|]. cbn [sample_R hash_squeeze h_v h_in h_off] in E. rewrite squeeze_elem_eq in E. cbn [bind] in E.
  assert (RF : read forb 0 (m2 I) = Ok forb) by (rewrite read_ok by lia; unfold slice; cbn [skipn]; rewrite <- Lf, firstn_all; reflexivity).
  rewrite RF in E. cbn [bind] in E. replace (k * lambda I + lambda I) with (S k * lambda I) in E by lia. destruct (existsb (N.eqb (relt k)) forb) eqn:G.
  - destruct (IH _ _ _ E) as (n & -> & F). exists (S n). split; [do 2 f_equal; lia|]. cbn [seq map filter]. rewrite G. exact F.
  - injection E as <- <-. exists 1. split; [do 2 f_equal; lia|]. cbn [seq map filter]. rewrite G. reflexivity.
Qed.
Lemma sample_Rs_filter fuel n : forall k l, sample_Rs H I c fuel forb n (mkCtx v m (Some (k * lambda I))) = Ok l ->
  exists M, l = filter good (map relt (seq k M)) /\ length l = n.
Proof.
  induction n; intros k l E; cbn [sample_Rs] in E; [injection E as <-; exists 0; auto|].
  destruct (sample_R H I c fuel forb (mkCtx v m (Some (k * lambda I)))) as [[x ctx']| | |] eqn:E1; cbn [bind] in E; try discriminate E.
  destruct (sample_R_filter _ _ _ _ E1) as (a & -> & F1).
  destruct (sample_Rs H I c fuel forb n (mkCtx v m (Some ((k + a) * lambda I)))) as [xs| | |] eqn:E2; cbn [bind] in E; try discriminate E. injection E as <-.
  destruct (IHn _ _ E2) as (b & -> & L). exists (a + b). rewrite seq_app, map_app, filter_app, F1. cbn [app length]. auto.
Qed.
End Field.

Lemma phase_1_eq H I c h1 : init_extension_field (lambda I) = Ok c ->
  phase_1_expand H I c h1 = Ok (map (fun e => map (fun j => from_bytes (stream H (digest_size I =? 32) h1 ((e * m1 I + j) * lambda I) (lambda I))) (seq 0 (m1 I))) (seq 0 (num_rounds I))).
Proof.
  intros HI. unfold phase_1_expand. change (hash_final (hash_update (hash_init (digest_size I)) h1)) with (mkCtx (digest_size I =? 32) h1 (Some (0 * lambda I))).
  rewrite (squeeze_rows_eq H I c HI). f_equal. apply map_ext_in. intros e _. cbn [Nat.add].
  assert (Q : forall n k, map (relt H I (digest_size I =? 32) h1) (seq k n) = map (fun j => from_bytes (stream H (digest_size I =? 32) h1 ((k + j) * lambda I) (lambda I))) (seq 0 n)).
  { induction n; intros k; [reflexivity|]. cbn [seq map]. rewrite IHn, <- seq_shift, map_map. rewrite Nat.add_0_r. f_equal. apply map_ext. intros j. do 2 f_equal. lia. }
  apply Q.
Qed.
Lemma phase_2_filter H I c nk fuel h2 l : inst_any I c nk -> phase_2_expand H I c fuel h2 (get_first_n_field_elements c (m2 I)) = Ok l ->
  length l = num_rounds I /\ exists M, l = accepted_of (R_candidate H I h2) (fun x => negb (existsb (N.eqb x) (get_first_n_field_elements c (m2 I)))) M.
Proof.
  intros OK E. pose proof (io_field _ _ _ OK) as HI. unfold phase_2_expand in E. change (hash_final (hash_update (hash_init (digest_size I)) h2)) with (mkCtx (digest_size I =? 32) h2 (Some (0 * lambda I))) in E.
  destruct (sample_Rs_filter H I c HI _ _ _ ltac:(apply (api_points _ _ HI); apply (points_ok I c nk OK); lia) _ _ _ _ E) as (M & -> & L). split; [exact L|]. exists M. reflexivity.
Qed.

(** *** the statements of PropHash *)
Lemma party_challenges H I fuel garb h3 l : 1 <= num_parties I -> (N.of_nat (num_parties I) < 65536)%N -> phase_3_expand H I fuel garb h3 = Ok l ->
  length l = num_rounds I /\ Forall (fun p => p < num_parties I) l /\
  (exists M, l = filter (fun p => p <? num_parties I) (map (party_candidate H I h3) (seq 0 M))) /\
  (forall fuel' garb', fuel <= fuel' -> phase_3_expand H I fuel' garb' h3 = Ok l).
Proof.
  intros H1 H2 E. destruct (phase_3_filter H I fuel garb h3 l H1 H2 E) as (L & M & EM).
  destruct (phase_3_outcome H I H1 fuel garb h3) as [X|(l' & X & _ & F & Y)]; rewrite E in X; [discriminate X|]. injection X as <-.
  split; [exact L|]. split; [exact F|]. split; [exists M; exact EM|]. intros fuel' garb' Hf. rewrite (phase_3_garb H I H1 fuel' garb' garb).
  replace fuel' with (fuel + (fuel' - fuel)) by lia. apply Y.
Qed.
Lemma R_challenges H I c fuel h2 l : regular I -> init_extension_field (lambda I) = Ok c -> phase_2_expand H I c fuel h2 (get_first_n_field_elements c (m2 I)) = Ok l ->
  length l = num_rounds I /\
  Forall (fun R => (R < 2 ^ (8 * N.of_nat (lambda I)))%N /\ ~ In R (get_first_n_field_elements c (m2 I))) l /\
  (exists M, l = filter (fun R => negb (existsb (N.eqb R) (get_first_n_field_elements c (m2 I)))) (map (R_candidate H I h2) (seq 0 M))) /\
  (forall fuel', fuel <= fuel' -> phase_2_expand H I c fuel' h2 (get_first_n_field_elements c (m2 I)) = Ok l).
Proof.
  intros HB Hc E. destruct (regular_inst_ok I HB) as [c' OK]. assert (c' = c) by (pose proof (io_field _ _ _ OK); congruence). subst c'.
  destruct (phase_2_filter H I c _ fuel h2 l OK E) as (L & M & EM).
  assert (N1 : 1 <= num_parties I) by (pose proof (n_pos I c _ OK); lia). destruct (phase_2_outcome H I N1 c Hc fuel h2) as [X|(l' & X & _ & F & Y)]; [apply (points_ok I c _ OK); lia|rewrite E in X; discriminate X|]. rewrite E in X. injection X as <-.
  split; [exact L|]. split; [exact F|]. split; [exists M; exact EM|]. intros fuel' Hf. replace fuel' with (fuel + (fuel' - fuel)) by lia. apply Y.
Qed.
(** for a power of two up to 256 nothing is rejected: the k-th opened party is the k-th byte mod N *)
Lemma filter_true {A} (f : A -> bool) l : Forall (fun x => f x = true) l -> filter f l = l.
Proof. induction 1; [reflexivity|]. cbn [filter]. rewrite H. f_equal. exact IHForall. Qed.
Lemma party_challenges_pow2 H I k fuel garb h3 : num_parties I = 2 ^ k -> k <= 8 -> 1 <= fuel ->
  phase_3_expand H I fuel garb h3 = Ok (map (fun e => N.to_nat (H (digest_size I =? 32)%nat h3 e mod 256 mod N.of_nat (num_parties I))%N) (seq 0 (num_rounds I))).
Proof.
  intros EN Hk Hf.
  assert (B : 2 ^ k <= 256) by (change 256 with (2 ^ 8); apply Nat.pow_le_mono_r; lia).
  assert (P : 1 <= num_parties I) by (rewrite EN; pose proof (Nat.pow_nonzero 2 k); lia).
  assert (Q : (N.of_nat (num_parties I) < 65536)%N) by (rewrite EN; lia).
  assert (W : (256 <? num_parties I) = false) by (apply Nat.ltb_ge; rewrite EN; exact B).
  assert (LG : Nat.log2_up (num_parties I) = k) by (rewrite EN; apply Nat.log2_up_pow2; lia).
  assert (C : forall e, party_candidate H I h3 e = N.to_nat (H (digest_size I =? 32)%nat h3 e mod 256 mod N.of_nat (num_parties I))%N).
  { intros e. unfold party_candidate. rewrite W. cbv zeta. rewrite Nat.mul_1_r. unfold stream. cbn [seq map le_word]. rewrite LG, EN, Nat2N.inj_pow.
    rewrite N.mul_0_r, N.add_0_r. reflexivity. }
  assert (G : forall e, party_candidate H I h3 e < num_parties I).
  { intros e. rewrite C. pose proof (N.mod_lt (H (digest_size I =? 32)%nat h3 e mod 256) (N.of_nat (num_parties I)) ltac:(lia)). lia. }
  destruct (phase_3_expand H I fuel garb h3) as [l|x|x|] eqn:E.
  - destruct (phase_3_filter H I fuel garb h3 l P Q E) as (L & M & ->). unfold accepted_of in *.
    assert (FT : filter (fun p => p <? num_parties I) (map (party_candidate H I h3) (seq 0 M)) = map (party_candidate H I h3) (seq 0 M)).
    { apply filter_true, Forall_map, Forall_forall. intros e _. apply Nat.ltb_lt, G. }
    rewrite FT in *. rewrite map_length, seq_length in L. subst M. f_equal. apply map_ext. exact C.
  - destruct (phase_3_outcome H I P fuel garb h3) as [X|(l & X & _)]; rewrite E in X; discriminate X.
  - destruct (phase_3_outcome H I P fuel garb h3) as [X|(l & X & _)]; rewrite E in X; discriminate X.
  - exfalso. revert E. unfold phase_3_expand. generalize (hash_final (hash_update (hash_init (digest_size I)) h3)), 0 at 1. generalize (num_rounds I). intros T. 
    assert (S1 : squeeze_size I = 1) by (unfold squeeze_size; rewrite W; reflexivity).
    assert (one : forall hi ctx, sample_party H I fuel hi ctx <> OutOfFuel).
    { intros hi ctx. destruct fuel as [|f]; [lia|]. cbn [sample_party]. destruct (hash_squeeze H ctx (squeeze_size I)) as [b ctx']. rewrite S1. cbn [Nat.eqb].
      rewrite (land_mask I P Q), LG. assert (L : forall z, (z mod 2 ^ N.of_nat k < N.of_nat (num_parties I))%N).
      { intros z. rewrite EN, Nat2N.inj_pow. apply N.mod_lt, N.pow_nonzero. discriminate. }
      specialize (L (le_word b + 256 * hi)%N). apply N.leb_gt in L. rewrite L. discriminate. }
    induction T; intros ctx e; [discriminate|]. cbn [sample_parties].
    pose proof (one (garb e mod 256)%N ctx) as O. destruct (sample_party H I fuel (garb e mod 256)%N ctx) as [[p ctx']| | |]; cbn [bind]; try discriminate; [|contradiction].
    pose proof (IHT ctx' (S e)) as O2. destruct (sample_parties H I fuel garb (S e) T ctx'); cbn [bind]; try discriminate. contradiction.
Qed.
