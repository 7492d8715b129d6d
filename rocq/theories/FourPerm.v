(** The permutations of four states with 12, 6 and 4 rounds *)
From Coq Require Import Arith NArith List Bool Lia.
From Verif Require Import Prelude SpongeModel SpongeFacts KeccakSpec KeccakModel KeccakFacts KeccakBytes SnpMem SnpLayout SnpSponge SnpSim SnpSim4 Opt64Model Opt64Facts Opt64More Opt64MoreFacts X86Model Simd256Model Simd256Round Simd256Facts StateSpec PutFacts Avx2Fast12 FourSpec FourModel FourLay.
Import ListNotations.

Tactic Notation "each_p" ident(k) := do 4 (try destruct k as [|k]); try (intros; reflexivity); intros; first [assumption | rewrite rol_eqN by assumption; reflexivity | rewrite rol8_eq by assumption; reflexivity | rewrite rol56_eq by assumption; reflexivity].
Lemma q_prepare k A : Forall vok (vlist A) -> pjc (p_of k) (prepareTheta A) = prepare_theta (pj (p_of k) A) /\ Forall vok (vclist (prepareTheta A)).
Proof. intros H. apply pj_prepare; each_p k. Qed.
Lemma q_round k i A C : Forall vok (vlist A) -> Forall vok (vclist C) ->
  (pj (p_of k) (fst (thetaRhoPiChiIotaPrepareTheta i A C)) = fst (theta_rho_pi_chi_iota_prepare_theta i (pj (p_of k) A) (pjc (p_of k) C)) /\
   Forall vok (vlist (fst (thetaRhoPiChiIotaPrepareTheta i A C)))) /\
  (pjc (p_of k) (snd (thetaRhoPiChiIotaPrepareTheta i A C)) = snd (theta_rho_pi_chi_iota_prepare_theta i (pj (p_of k) A) (pjc (p_of k) C)) /\
   Forall vok (vclist (snd (thetaRhoPiChiIotaPrepareTheta i A C)))).
Proof. intros H HC. apply pj_round; each_p k. Qed.
Lemma q_last k i A C : Forall vok (vlist A) -> Forall vok (vclist C) ->
  pj (p_of k) (thetaRhoPiChiIota i A C) = theta_rho_pi_chi_iota i (pj (p_of k) A) (pjc (p_of k) C) /\ Forall vok (vlist (thetaRhoPiChiIota i A C)).
Proof. intros H HC. apply pj_last; each_p k. Qed.
(** a round of all states whose column sums are those of the lanes *)
Definition sums (k : nat) (A : vlanes) (C : vcols) : Prop := Forall vok (vlist A) /\ Forall vok (vclist C) /\ pjc (p_of k) C = prepare_theta (pj (p_of k) A).
Lemma sums_start k A : Forall vok (vlist A) -> sums k A (prepareTheta A).
Proof. intros H. destruct (q_prepare k A H) as [E HC]. exact (conj H (conj HC E)). Qed.
Lemma sums_step k i A C : sums k A C -> exists A' C', thetaRhoPiChiIotaPrepareTheta i A C = (A', C') /\ sums k A' C' /\ pj (p_of k) A' = round i (pj (p_of k) A).
Proof.
  intros (H & HC & E). destruct (q_round k i A C H HC) as ((E1 & H1) & (E2 & H2)). rewrite E in E1, E2. rewrite step_eq in E1, E2.
  destruct (thetaRhoPiChiIotaPrepareTheta i A C) as [A' C']. cbn [fst snd] in *. exists A', C'. split; [reflexivity|]. split; [|exact E1]. split; [exact H1|]. split; [exact H2|]. rewrite E1. exact E2.
Qed.
Lemma sums_last k i A C : sums k A C -> pj (p_of k) (thetaRhoPiChiIota i A C) = round i (pj (p_of k) A).
Proof. intros (H & HC & E). destruct (q_last k i A C H HC) as (E1 & _). rewrite E in E1. rewrite round_last' in E1. exact E1. Qed.
Ltac go := repeat match goal with
  | S : sums ?k ?A ?C |- context [let (_, _) := thetaRhoPiChiIotaPrepareTheta ?i ?A ?C in _] =>
    let A' := fresh "A" in let C' := fresh "C" in let E := fresh in let S' := fresh "S" in let R := fresh "R" in destruct (sums_step k i A C S) as (A' & C' & E & S' & R); rewrite E; clear E; clear S
  end.
Ltac rounds_done := match goal with S : sums ?k ?A ?C |- _ => rewrite (sums_last k _ A C S) end; unfold rounds_n; cbn [Nat.sub seq fold_left]; repeat match goal with R : pj _ _ = _ |- _ => rewrite R; clear R end; reflexivity.
Lemma four4 k A : Forall vok (vlist A) -> pj (p_of k) (vrounds4 A) = rounds_n 4 (pj (p_of k) A).
Proof. intros H. unfold vrounds4. cbv zeta. pose proof (sums_start k A H) as S0. set (C := prepareTheta A) in *. clearbody C. go. rounds_done. Qed.
Lemma four6 k A : Forall vok (vlist A) -> pj (p_of k) (vrounds6 A) = rounds_n 6 (pj (p_of k) A).
Proof. intros H. unfold vrounds6. cbv zeta. pose proof (sums_start k A H) as S0. set (C := prepareTheta A) in *. clearbody C. go. rounds_done. Qed.
Lemma four12 k A : Forall vok (vlist A) -> pj (p_of k) (vrounds12 A) = rounds_n 12 (pj (p_of k) A).
Proof. intros H. unfold vrounds12. cbv zeta. pose proof (sums_start k A H) as S0. set (C := prepareTheta A) in *. clearbody C. go. rounds_done. Qed.

Lemma permute_all_by_ok P R n m sts : (forall k A, Forall vok (vlist A) -> pj (p_of k) (R A) = rounds_n n (pj (p_of k) A)) ->
  aligned P -> lay4 m sts -> exists m', permute_all_by P R m = Ok m' /\ lay4 m' (map (permute_n n) sts).
Proof.
  intros HR (A1 & A2 & A3) (Lm & Bm & Ls & Bs & H). unfold permute_all_by, aligned32. rewrite A1, A2, A3. cbn [N.eqb andb]. change (8 * 100) with 800 in Lm.
  destruct (copyFrom_spec m Lm) as (A & E & S). rewrite E. cbn [bind].
  assert (HV : Forall vok (vlist A)).
  { apply Forall_forall. intros v Hv. apply (In_nth _ _ (V4 0 0 0 0)) in Hv. destruct Hv as (j & Hj & <-). change (length (vlist A)) with 25 in Hj.
    unfold vok. change (b64 (p_of 0 (nth j (vlist A) (V4 0 0 0 0))) /\ b64 (p_of 1 (nth j (vlist A) (V4 0 0 0 0))) /\ b64 (p_of 2 (nth j (vlist A) (V4 0 0 0 0))) /\ b64 (p_of 3 (nth j (vlist A) (V4 0 0 0 0)))).
    rewrite !S by lia. repeat split; apply lane_b64; exact Bm. }
  rewrite copyTo_fold. destruct (store_list (vlist (R A)) 0 m Bm Lm ltac:(cbn; lia)) as (m' & E' & L' & B' & S'). change (length (vlist (R A))) with 25 in *. exists m'. split; [exact E'|].
  split; [exact L'|]. split; [exact B'|]. split; [rewrite map_length; exact Ls|].
  assert (NM : forall i, i < 4 -> nth i (map (permute_n n) sts) [] = permute_n n (nth i sts [])).
  { intros i Hi. rewrite (nth_indep _ [] (permute_n n [])) by (rewrite map_length; lia). apply map_nth. }
  split; [intros i Hi; rewrite NM by exact Hi; split; apply permute_n_good|].
  intros i j Hi Hj. rewrite NM by exact Hi. rewrite S' by assumption. replace ((0 <=? j) && (j <? 0 + 25)) with true by (symmetry; apply andb_true_iff; split; [reflexivity|apply Nat.ltb_lt; lia]). rewrite Nat.sub_0_r.
  unfold permute_n. rewrite to_state_slice by exact Hj. f_equal.
  assert (CF : pj (p_of i) A = copy_from_state (nth i sts [])).
  { apply lanes_eq. rewrite copy_list. apply (nth_ext _ _ 0%N 0%N); [reflexivity|]. change (length (lanes_list (pj (p_of i) A))) with 25. intros t Ht. rewrite lanes_nth by exact Ht.
    transitivity (p_of i (nth t (vlist A) (V4 0 0 0 0))); [|rewrite S by assumption; unfold lane; rewrite H by assumption; reflexivity].
    rewrite <- (map_nth (p_of i)). change (lanes_list (pj (p_of i) A)) with (map (p_of i) (vlist A)). apply nth_indep. rewrite map_length. exact Ht. }
  rewrite <- CF, <- (HR i A HV). change (lanes_list (pj (p_of i) (R A))) with (map (p_of i) (vlist (R A))).
  rewrite (nth_indep _ 0%N (p_of i (V4 0 0 0 0))) by (rewrite map_length; exact Hj). symmetry. apply map_nth.
Qed.
