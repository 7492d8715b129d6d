(** The outcome of verification on any well-shaped signature, in terms of the relations of SigSpec. *)
From Coq Require Import Arith NArith List Bool Lia.
From Verif Require Import Prelude FieldModel FieldSpec FieldApi FieldLin PolyModel Instances HashModel TreeModel TreeSpec TreeProofs TreeApi TreeRev AesSpec AesModel AesBase AesApi AesShares BanquetModel ContainerModel ListSum BanquetHash BanquetPure BanquetVerify BanquetCtx BanquetRun BanquetApi ChallengeFacts Serialize SigSpec AnySpec VerifyTree VerifyFacts.
Import ListNotations.

Lemma filter_prefix {A} (f : A -> bool) (g : nat -> A) M M' : length (filter f (map g (seq 0 M))) = length (filter f (map g (seq 0 M'))) ->
  filter f (map g (seq 0 M)) = filter f (map g (seq 0 M')).
Proof.
  assert (G : forall a b, length (filter f (map g (seq 0 a))) = length (filter f (map g (seq 0 (a + b)))) -> filter f (map g (seq 0 a)) = filter f (map g (seq 0 (a + b)))).
  { intros a b. rewrite seq_app, map_app, filter_app, app_length. intros L. destruct (filter f (map g (seq (0 + a) b))); [symmetry; apply app_nil_r|cbn in L; lia]. }
  intros L. destruct (le_lt_dec M M') as [A1|A1].
  - replace M' with (M + (M' - M)) in * by lia. apply G. exact L.
  - replace M with (M' + (M - M')) in * by lia. symmetry. apply G. symmetry. exact L.
Qed.
Lemma mapM_throw {B} (f : nat -> res B) (g : nat -> B) (bad : nat -> bool) (e : exn) n : (forall a, a < n -> f a = if bad a then Throw e else Ok (g a)) ->
  mapM f (seq 0 n) = if existsb bad (seq 0 n) then Throw e else Ok (map g (seq 0 n)).
Proof.
  assert (G : forall l, (forall a, In a l -> f a = if bad a then Throw e else Ok (g a)) -> mapM f l = if existsb bad l then Throw e else Ok (map g l)).
  { induction l as [|a l IH]; intros Hf; [reflexivity|]. cbn [mapM existsb map]. rewrite (Hf a (or_introl eq_refl)). destruct (bad a); [reflexivity|]. cbn [bind orb].
    rewrite IH by (intros; apply Hf; right; assumption). destruct (existsb bad l); reflexivity. }
  intros Hf. apply G. intros a Ha. apply in_seq in Ha. apply Hf. lia.
Qed.

Section Outcome.
Variables (H : oracle) (I : instance) (c : fctx) (nk : nat).
Hypothesis OK : inst_any I c nk.
Let HI := io_field _ _ _ OK.
Notation E := (elt (lambda I)).
Notation lam := (lambda I).
Notation n := (num_parties I).
Notation M1 := (m1 I).
Notation M2 := (m2 I).
Notation T := (num_rounds I).
Variables (sig : signature) (pk : bytes).
Hypothesis SS : sig_shape I sig.
Hypothesis Hpk : str (2 * pt_size I) pk.
Notation pt := (slice pk 0 (pt_size I)).
Notation ct := (slice pk (pt_size I) (pt_size I)).
Notation salt := (s_salt sig).

Lemma pt_str : str (pt_size I) pt.
Proof. clear - Hpk. destruct Hpk as [L B]. split; [apply slice_length; lia|apply is_bytes_slice; exact B]. Qed.
Lemma ct_str : str (pt_size I) ct.
Proof. clear - Hpk. destruct Hpk as [L B]. split; [apply slice_length; lia|apply is_bytes_slice; exact B]. Qed.
Lemma proofs_eq : s_proofs sig = map (pf_of sig) (seq 0 T).
Proof. apply list_map_nth'. apply SS. Qed.
Lemma pf_shape e : e < T -> proof_shape I (pf_of sig e).
Proof. intros He. pose proof (ss_proofs _ _ SS) as F. rewrite Forall_forall in F. apply F. apply nth_In. rewrite (ss_len _ _ SS). exact He. Qed.
Lemma h2_eq : hash_of H I HASH_PREFIX_2 (in2 I salt (s_h1 sig) (fun r => p_P_delta (pf_of sig r))) = h2_of H I sig.
Proof. reflexivity. Qed.
(** for any number of parties *)
Section Any.
Variables (X : nat -> rep_values) (fuel : nat) (garb : nat -> N) (msg : bytes) (l : list N).
Variable (ms : list nat).
Hypothesis E3 : phase_3_expand H I fuel garb (s_h3 sig) = Ok ms.
Hypothesis TR : is_transcript_any H I c pk sig X.
Hypothesis EP : phase_2_expand H I c fuel (h2_of H I sig) (get_first_n_field_elements c M2) = Ok l.
Hypothesis IDX : forall e, e < T -> snd (p_reveal (pf_of sig e)) = x_hidden (X e).
Lemma points_eq : l = map (fun e => x_point (X e)) (seq 0 T).
Proof.
  destruct (phase_2_filter H I c nk fuel _ l OK EP) as (L & M & EM). destruct (ta_points _ _ _ _ _ _ TR) as [M' EM'].
  rewrite EM, EM'. unfold accepted_of. change (R_candidate H I (h2_of H I sig)) with (candidate H I sig). unfold accepted_of in EM.
  change (R_candidate H I (h2_of H I sig)) with (candidate H I sig) in EM. unfold forbidden in EM' |- *. apply filter_prefix. rewrite <- EM, <- EM', L, length_map_seq. reflexivity.
Qed.
Lemma point_E e : e < T -> E (x_point (X e)).
Proof.
  intros He. assert (In (x_point (X e)) l). { rewrite points_eq. apply (in_map (fun e => x_point (X e))). apply in_seq. lia. }
  destruct (phase_2_filter H I c nk fuel _ l OK EP) as (L & M & EM). rewrite EM in H0. unfold accepted_of in H0. apply filter_In in H0. destruct H0 as [A _].
  apply in_map_iff in A. destruct A as (k & <- & _). apply (api_bytes _ _ HI); [apply stream_bytes|apply stream_length].
Qed.
Lemma ms_eq : ms = map (fun e => x_hidden (X e)) (seq 0 T).
Proof.
  destruct (io_leaves _ _ _ OK) as [N2 _]. pose proof (io_N _ _ _ OK) as N3. destruct (phase_3_filter H I fuel garb _ ms ltac:(lia) ltac:(exact N3) E3) as (L & M & EM).
  destruct (ta_hidden _ _ _ _ _ _ TR) as [L' [M' EM']]. rewrite EM, EM'. unfold accepted_of in *. apply filter_prefix. rewrite <- EM, <- EM', L, length_map_seq. reflexivity.
Qed.
Lemma hidden_lt e : e < T -> x_hidden (X e) < n.
Proof.
  intros He. destruct (ta_hidden _ _ _ _ _ _ TR) as [_ [M EM]]. assert (J : In (x_hidden (X e)) (map (fun e => x_hidden (X e)) (seq 0 T))) by (apply (in_map (fun e => x_hidden (X e))), in_seq; lia).
  rewrite EM in J. apply filter_In in J. apply Nat.ltb_lt. apply J.
Qed.
Variables (pre1 pre2 : list (list N)).
Hypothesis G1 : lagr lam c (xs1 I c) pre1.
Hypothesis G2 : lagr lam c (xs2 I c) pre2.
Notation D := (fun e => vin_of I (pf_of sig e) (X e)).
Lemma in1_eq : [HASH_PREFIX_1] ++ in1 I salt pk msg (fun r => w_com H I salt r (D r)) (fun r => w_bcast H I nk salt pt ct r (D r))
  (fun r => p_sk_delta (vi_pf (D r))) (fun r => p_t_delta (vi_pf (D r))) = h1_input I salt pk msg (pf_of sig) X.
Proof.
  unfold in1, h1_input, part1. do 4 f_equal. f_equal. apply map_seq_ext. intros e He. assert (e < T) by lia. f_equal. f_equal. apply map_seq_ext. intros p Hp.
  pose proof (ta_reps _ _ _ _ _ _ TR e H0) as RO. f_equal.
  - apply (w_com_eq H I c salt (s_h1 sig) pt ct e (pf_of sig e) (X e) RO). lia.
  - apply (w_bcast_eq H I c nk OK salt (s_h1 sig) pt ct e (pf_of sig e) (X e) pt_str (pf_shape e H0) RO (hidden_lt e H0) (IDX e H0)). lia.
Qed.
Lemma in3_eq : [HASH_PREFIX_3] ++ in3 I salt (h2_of H I sig) (fun r => w_open (D r)) (fun r => w_view H I c nk pre1 pre2 salt pt r (D r)) =
  h3_input I salt (h2_of H I sig) (pf_of sig) X.
Proof.
  unfold in3, h3_input, part3. do 3 f_equal. f_equal. apply map_seq_ext. intros e He. assert (e < T) by lia.
  pose proof (ta_reps _ _ _ _ _ _ TR e H0) as RO. cbv zeta. f_equal. f_equal.
  - f_equal. apply map_seq_ext. intros p Hp. f_equal.
    apply (w_view_c H I c nk OK pre1 pre2 G2 salt (s_h1 sig) pt ct e (pf_of sig e) (X e) (pf_shape e H0) RO (hidden_lt e H0) (point_E e H0) (IDX e H0)). lia.
  - f_equal. apply map_seq_ext. intros j Hj. f_equal. f_equal. f_equal. apply map_seq_ext. intros p Hp. f_equal; f_equal.
    + apply (w_view_a H I c nk OK pre1 pre2 G1 salt (s_h1 sig) pt ct e (pf_of sig e) (X e) pt_str (pf_shape e H0) RO (hidden_lt e H0) (point_E e H0) (IDX e H0)); lia.
    + apply (w_view_b H I c nk OK pre1 pre2 G1 salt (s_h1 sig) pt ct e (pf_of sig e) (X e) (pf_shape e H0) RO (hidden_lt e H0) (point_E e H0) (IDX e H0)); lia.
Qed.

Lemma phase_1_X : phase_1_expand H I c (s_h1 sig) = Ok (map (fun e => x_coef (X e)) (seq 0 T)).
Proof.
  rewrite (phase_1_eq H I c _ HI). f_equal. apply map_seq_ext. intros e He. symmetry. apply (rc_coef _ _ _ _ _ _ _ _ _ _ (rp_core _ _ _ _ _ _ _ _ _ _ (ta_reps _ _ _ _ _ _ TR e ltac:(lia)))).
Qed.
Lemma phase_3_X : phase_3_expand H I fuel garb (s_h3 sig) = Ok (map (fun e => x_hidden (X e)) (seq 0 T)).
Proof. rewrite <- ms_eq. exact E3. Qed.
Lemma vin_X e : e < T -> vin_ok H I salt e (D e).
Proof.
  intros He. apply (vin_of_ok H I c nk OK salt (s_h1 sig) pt ct e (pf_of sig e) (X e) (pf_shape e He) (ta_reps _ _ _ _ _ _ TR e He) (hidden_lt e He) (point_E e He) (IDX e He)).
Qed.
Lemma read_pt : read pk 0 (pt_size I) = Ok pt.
Proof. clear - Hpk. apply read_ok. destruct Hpk. lia. Qed.
Lemma read_ct : read pk (pt_size I) (pt_size I) = Ok ct.
Proof. clear - Hpk. apply read_ok. destruct Hpk. lia. Qed.
Lemma body_any : verify_body H I c fuel garb pk sig msg =
  Ok (bytes_eqb (digest H I (h1_input I salt pk msg (pf_of sig) X)) (s_h1 sig) &&
      bytes_eqb (digest H I (h3_input I salt (h2_of H I sig) (pf_of sig) X)) (s_h3 sig) &&
      forallb (fun e => rel_holds I c (D e)) (seq 0 T)).
Proof.
  rewrite (verify_body_ok H I c nk OK pre1 pre2 fuel garb pk pt ct sig msg D G1 G2 read_pt read_ct (proj2 pt_str)).
  - do 3 f_equal; f_equal; unfold hash_of, digest; f_equal; [apply in1_eq|apply in3_eq].
  - apply proofs_eq.
  - apply vin_X.
  - apply SS.
  - apply SS.
  - apply phase_1_X.
  - exact (eq_trans EP (f_equal Ok points_eq)).
  - apply phase_3_X.
Qed.
Lemma contexts_any : exists k1 k3 p1 p3, verify_contexts H I c fuel garb pk sig msg =
  Ok (mkCtx k1 (h1_input I salt pk msg (pf_of sig) X) p1, mkCtx k3 (h3_input I salt (h2_of H I sig) (pf_of sig) X) p3).
Proof.
  rewrite (verify_contexts_ok H I c nk OK pre1 pre2 fuel garb pk pt ct sig msg D G1 G2 read_pt read_ct (proj2 pt_str)).
  - do 4 eexists. unfold ctx_of. rewrite <- in1_eq, <- in3_eq. reflexivity.
  - apply proofs_eq.
  - apply vin_X.
  - apply phase_1_X.
  - exact (eq_trans EP (f_equal Ok points_eq)).
  - apply phase_3_X.
Qed.
End Any.

(** for powers of two up to 256 the relations of SigSpec are these *)
Section Trans.
Variable (k0 : nat).
Hypothesis HP : num_parties I = 2 ^ k0.
Hypothesis Hk8 : k0 <= 8.
Lemma hidden_pow fuel garb : 1 <= fuel -> phase_3_expand H I fuel garb (s_h3 sig) =
  Ok (map (fun e => N.to_nat (H (digest_size I =? 32)%nat (s_h3 sig) e mod 256 mod N.of_nat n)%N) (seq 0 T)).
Proof. intros Hf. apply (party_challenges_pow2 H I k0); assumption. Qed.

Lemma transcript_any X : is_transcript H I c pk sig X -> is_transcript_any H I c pk sig X.
Proof.
  intros TR. destruct (io_leaves _ _ _ OK) as [N2 _]. pose proof (io_N _ _ _ OK) as N3. constructor.
  - exact (tr_points _ _ _ _ _ _ TR).
  - destruct (phase_3_filter H I 1 (fun _ => 0%N) _ _ ltac:(lia) ltac:(exact N3) (hidden_pow 1 (fun _ => 0%N) (le_n 1))) as (L & M & EM).
    replace (map (fun e => x_hidden (X e)) (seq 0 T)) with (map (fun e => N.to_nat (H (digest_size I =? 32)%nat (s_h3 sig) e mod 256 mod N.of_nat n)%N) (seq 0 T));
      [split; [exact L|exists M; exact EM]|].
    apply map_seq_ext. intros e He. symmetry. apply (ro_hidden _ _ _ _ _ _ _ _ _ _ _ (tr_reps _ _ _ _ _ _ TR e ltac:(lia))).
  - intros e He. exact (ro_open _ _ _ _ _ _ _ _ _ _ _ (tr_reps _ _ _ _ _ _ TR e He)).
Qed.
Variables (X : nat -> rep_values) (fuel : nat) (garb : nat -> N) (msg : bytes) (l : list N).
Hypothesis Hf : 1 <= fuel.
Hypothesis TR : is_transcript H I c pk sig X.
Hypothesis EP : phase_2_expand H I c fuel (h2_of H I sig) (get_first_n_field_elements c M2) = Ok l.
Hypothesis IDX : forall e, e < T -> snd (p_reveal (pf_of sig e)) = x_hidden (X e).
Variables (pre1 pre2 : list (list N)).
Hypothesis G1 : lagr lam c (xs1 I c) pre1.
Hypothesis G2 : lagr lam c (xs2 I c) pre2.
Notation D := (fun e => vin_of I (pf_of sig e) (X e)).
Lemma body_X : verify_body H I c fuel garb pk sig msg =
  Ok (bytes_eqb (digest H I (h1_input I salt pk msg (pf_of sig) X)) (s_h1 sig) &&
      bytes_eqb (digest H I (h3_input I salt (h2_of H I sig) (pf_of sig) X)) (s_h3 sig) &&
      forallb (fun e => rel_holds I c (D e)) (seq 0 T)).
Proof. exact (body_any X fuel garb msg l _ (hidden_pow fuel garb Hf) (transcript_any X TR) EP IDX pre1 pre2 G1 G2). Qed.
Lemma contexts_X : exists k1 k3 p1 p3, verify_contexts H I c fuel garb pk sig msg =
  Ok (mkCtx k1 (h1_input I salt pk msg (pf_of sig) X) p1, mkCtx k3 (h3_input I salt (h2_of H I sig) (pf_of sig) X) p3).
Proof. exact (contexts_any X fuel garb msg l _ (hidden_pow fuel garb Hf) (transcript_any X TR) EP IDX pre1 pre2 G1 G2). Qed.
End Trans.
End Outcome.
