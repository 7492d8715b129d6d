(** Proofs about the seed tree: which nodes exist, what the expansion loops compute. *)
From Coq Require Import Arith NArith List Bool Lia.
From Verif Require Import Prelude Instances HashModel TreeModel TreeSpec.
Import ListNotations.

(** ** Arithmetic *)
Lemma get_parent_eq n : n <> 0 -> get_parent n = parent n.
Proof.
  intros Hn. unfold get_parent, parent. destruct n as [|n]; [congruence|].
  replace (S n + 1) with (1 * 2 + n) by lia. rewrite Nat.div_add_l by lia.
  replace (S n - 1) with n by lia. lia.
Qed.
Lemma parent_lt n : n <> 0 -> parent n < n.
Proof. intros Hn. unfold parent. apply Nat.div_lt_upper_bound; lia. Qed.
Lemma parent_cases n : n <> 0 -> n = 2 * parent n + 1 \/ n = 2 * parent n + 2.
Proof.
  intros Hn. unfold parent. pose proof (Nat.div_mod (n - 1) 2 ltac:(lia)).
  pose proof (Nat.mod_upper_bound (n - 1) 2 ltac:(lia)). lia.
Qed.
Lemma parent_left n : parent (2 * n + 1) = n.
Proof. unfold parent. replace (2 * n + 1 - 1) with (n * 2) by lia. apply Nat.div_mul. lia. Qed.
Lemma parent_right n : parent (2 * n + 2) = n.
Proof. unfold parent. replace (2 * n + 2 - 1) with (1 + n * 2) by lia. rewrite Nat.div_add by lia. reflexivity. Qed.
Lemma right_left n : is_right (2 * n + 1) = false.
Proof. unfold is_right. rewrite Nat.even_add_mul_2 || idtac. replace (2 * n + 1) with (1 + 2 * n) by lia. rewrite Nat.even_add_mul_2. reflexivity. Qed.
Lemma right_right n : is_right (2 * n + 2) = true.
Proof. unfold is_right. replace (2 * n + 2) with (2 + 2 * n) by lia. rewrite Nat.even_add_mul_2. reflexivity. Qed.

Lemma depth_spec N : 2 <= N -> 2 ^ (depth N - 1) < N <= 2 ^ depth N /\ 1 <= depth N.
Proof.
  intros H. unfold depth. pose proof (Nat.log2_up_spec N ltac:(lia)) as S. rewrite <- Nat.sub_1_r in S.
  split; [exact S|]. apply Nat.log2_up_pos. lia.
Qed.
Lemma log2_up_N n : Nat.log2_up n = N.to_nat (N.log2_up (N.of_nat n)).
Proof.
  destruct (Nat.le_gt_cases n 1).
  - assert (E : n = 0 \/ n = 1) by lia. destruct E; subst; reflexivity.
  - apply Nat.log2_up_unique.
    + pose proof (N.log2_up_pos (N.of_nat n) ltac:(lia)). lia.
    + pose proof (N.log2_up_spec (N.of_nat n) ltac:(lia)) as [A B].
      assert (P : forall k, N.of_nat (2 ^ N.to_nat k) = (2 ^ k)%N).
      { intros k. rewrite Nat2N.inj_pow, N2Nat.id. reflexivity. }
      split.
      * apply Nat.lt_succ_r. pose proof (P (N.pred (N.log2_up (N.of_nat n)))) as Q. rewrite N2Nat.inj_pred in Q. lia.
      * pose proof (P (N.log2_up (N.of_nat n))). lia.
Qed.
Lemma ceil_log2_depth n : (1 <= N.of_nat n < 2 ^ 32)%N -> ceil_log2_nat n = depth n.
Proof.
  intros H. unfold ceil_log2_nat, depth. rewrite log2_up_N. f_equal.
  destruct (ceil_log2_spec (N.of_nat n) H) as [A B]. cbv zeta in A, B.
  destruct (N.eq_dec (N.of_nat n) 1) as [E|E].
  - rewrite E. reflexivity.
  - symmetry. apply N.log2_up_unique.
    + assert (0 <> ceil_log2 (N.of_nat n))%N; [|lia]. intros Z. rewrite <- Z in A. cbn in A. lia.
    + split; [|exact A]. apply N.nle_gt. intros C. apply B in C.
      assert (0 <> ceil_log2 (N.of_nat n))%N by (intros Z; rewrite <- Z in A; cbn in A; lia). lia.
Qed.

Lemma set_ok e i : i < length e -> exists e', set e i true = Ok e' /\ length e' = length e /\
  forall n, flag e' n = (n =? i) || flag e n.
Proof.
  intros H. unfold set. destruct (Nat.ltb_spec i (length e)); [|lia]. eexists. split; [reflexivity|].
  split; [apply upd_length|]. intros n. unfold flag. rewrite nth_upd.
  destruct (Nat.eqb_spec n i) as [->|Hn]; [|reflexivity]. destruct (Nat.ltb_spec i (length e)); [reflexivity|lia].
Qed.
Lemma set_many k : forall a e, a + k <= length e ->
  exists e', foldM (fun e i => set e i true) (seq a k) e = Ok e' /\ length e' = length e /\
  forall n, flag e' n = (a <=? n) && (n <? a + k) || flag e n.
Proof.
  induction k as [|k IH]; intros a e H.
  - exists e. split; [reflexivity|]. split; [reflexivity|]. intros n.
    destruct (Nat.leb_spec a n), (Nat.ltb_spec n (a + 0)); try reflexivity. lia.
  - cbn [seq foldM]. destruct (set_ok e a ltac:(lia)) as (e1 & -> & L1 & F1). cbn [bind].
    destruct (IH (S a) e1 ltac:(lia)) as (e2 & -> & L2 & F2). exists e2. split; [reflexivity|].
    split; [congruence|]. intros n. rewrite F2, F1.
    destruct (flag e n); rewrite ?orb_true_r; [reflexivity|]. rewrite !orb_false_r.
    destruct (Nat.leb_spec (S a) n), (Nat.ltb_spec n (S a + k)), (Nat.eqb_spec n a), (Nat.leb_spec a n), (Nat.ltb_spec n (a + S k));
      try reflexivity; lia.
Qed.
Lemma flag_repeat k n : flag (repeat false k) n = false.
Proof. unfold flag. revert n; induction k; intros [|n]; cbn; auto. Qed.

Lemma pow_pos k : 1 <= 2 ^ k.
Proof. pose proof (Nat.pow_nonzero 2 k ltac:(lia)). lia. Qed.
(** ** Existing nodes *)
Section Ex.
Variable N : nat.
Hypothesis HN : 2 <= N.
Let L := depth N.
Let first := 2 ^ L - 1.
Let total := 2 ^ L - 1 + N.

Definition exf (n : nat) : bool := (n + 1) * 2 ^ (L - Nat.log2 (n + 1)) <? 2 ^ L + N.

Lemma N_le : N <= 2 ^ L. Proof. apply depth_spec; assumption. Qed.
Lemma ex_0 : exf 0 = true.
Proof. unfold exf. cbn [Nat.add]. change (Nat.log2 1) with 0. rewrite Nat.sub_0_r. apply Nat.ltb_lt. lia. Qed.
Lemma ex_leaf n : first <= n -> exf n = (n <? total).
Proof.
  intros H. unfold exf. pose proof (pow_pos L).
  assert (E : L - Nat.log2 (n + 1) = 0).
  { pose proof (Nat.log2_le_mono (2 ^ L) (n + 1)) as M. rewrite Nat.log2_pow2 in M by lia. unfold first in H. lia. }
  rewrite E, Nat.mul_1_r. apply eq_true_iff_eq. rewrite !Nat.ltb_lt. unfold total. lia.
Qed.
Lemma log2_child n : Nat.log2 (2 * n + 1 + 1) = S (Nat.log2 (n + 1)) /\ Nat.log2 (2 * n + 2 + 1) = S (Nat.log2 (n + 1)).
Proof.
  split.
  - replace (2 * n + 1 + 1) with (2 * (n + 1)) by lia. apply Nat.log2_double. lia.
  - replace (2 * n + 2 + 1) with (2 * (n + 1) + 1) by lia. apply Nat.log2_succ_double. lia.
Qed.
Lemma depth_lt n : n < first -> Nat.log2 (n + 1) < L.
Proof. intros H. apply Nat.log2_lt_pow2; [lia|]. unfold first in H. pose proof (pow_pos L). lia. Qed.
Lemma ex_left n : n < first -> exf (2 * n + 1) = exf n.
Proof.
  intros H. unfold exf. rewrite (proj1 (log2_child n)). pose proof (depth_lt n H).
  replace (L - Nat.log2 (n + 1)) with (S (L - S (Nat.log2 (n + 1)))) by lia. cbn [Nat.pow].
  f_equal. lia.
Qed.
Lemma ex_right n : n < first -> exf (2 * n + 2) = true -> exf n = true.
Proof.
  intros H. rewrite <- (ex_left n H). unfold exf. rewrite (proj1 (log2_child n)), (proj2 (log2_child n)).
  rewrite !Nat.ltb_lt. pose proof (pow_pos (L - S (Nat.log2 (n + 1)))). nia.
Qed.
Lemma ex_lt_total n : exf n = true -> n < total.
Proof.
  intros H. destruct (Nat.le_gt_cases first n) as [A|A].
  - rewrite ex_leaf in H by assumption. apply Nat.ltb_lt. assumption.
  - unfold first, total in *. lia.
Qed.
Lemma parent_internal n : n <> 0 -> n < total -> parent n < first.
Proof.
  intros H0 H. pose proof N_le. pose proof (parent_cases n H0). pose proof (pow_pos L). unfold first, total in *. lia.
Qed.
Lemma ex_parent n : n <> 0 -> exf n = true -> exf (parent n) = true.
Proof.
  intros H0 H. pose proof (parent_internal n H0 (ex_lt_total n H)) as P.
  destruct (parent_cases n H0) as [E|E]; rewrite E in H.
  - rewrite ex_left in H by assumption. assumption.
  - apply ex_right in H; assumption.
Qed.

Lemma mark_up_ok i : forall e, i <= first -> length e = total ->
  (forall n, i < n \/ first <= n -> flag e n = exf n) -> (forall n, n <= i -> n < first -> flag e n = false) ->
  exists e', mark_up i e = Ok e' /\ length e' = total /\ forall n, n <> 0 -> flag e' n = exf n.
Proof.
  induction i as [|i IH]; intros e Hi Le Hup Hlo.
  - exists e. repeat split; auto. intros n Hn. apply Hup. lia.
  - cbn [mark_up]. pose proof (pow_pos L).
    assert (E : (flag e (2 * S i + 1) || flag e (2 * S i + 2)) = if S i <? first then exf (S i) else false).
    { rewrite !Hup by lia. destruct (Nat.ltb_spec (S i) first).
      - rewrite ex_left by assumption. destruct (exf (2 * S i + 2)) eqn:E2; [|apply orb_false_r].
        apply ex_right in E2; [|assumption]. rewrite E2. reflexivity.
      - pose proof N_le. rewrite !ex_leaf by lia.
        destruct (Nat.ltb_spec (2 * S i + 1) total); [unfold total, first in *; lia|].
        destruct (Nat.ltb_spec (2 * S i + 2) total); [lia|]. reflexivity. }
    rewrite E. destruct (Nat.ltb_spec (S i) first) as [C|C].
    + destruct (exf (S i)) eqn:Ex.
      * destruct (set_ok e (S i)) as (e1 & -> & L1 & F1); [rewrite Le; unfold total, first in *; lia|].
        cbn [bind]. apply IH; try lia.
        -- intros n Hn. rewrite F1. destruct (Nat.eqb_spec n (S i)) as [->|Hne]; [symmetry; exact Ex|]. apply Hup. lia.
        -- intros n Hn Hf. rewrite F1. destruct (Nat.eqb_spec n (S i)); [lia|]. apply Hlo; lia.
      * cbn [bind]. apply IH; try lia.
        -- intros n Hn. destruct (Nat.eq_dec n (S i)) as [->|Hne]; [rewrite Ex; apply Hlo; lia|]. apply Hup. lia.
        -- intros n Hn Hf. apply Hlo; lia.
    + cbn [bind]. apply IH; try lia.
      * intros n Hn. apply Hup. lia.
      * intros n Hn Hf. apply Hlo; lia.
Qed.
Lemma build_exists_ok : exists e, build_exists total N = Ok e /\ length e = total /\ forall n, flag e n = exf n.
Proof.
  unfold build_exists, mark_leaves. replace (total - N) with first by (unfold total, first; lia).
  destruct (set_many N first (repeat false total)) as (e1 & -> & L1 & F1).
  { rewrite repeat_length. unfold total, first. lia. }
  rewrite repeat_length in L1. cbn [bind].
  assert (F : forall n, flag e1 n = (first <=? n) && (n <? total)).
  { intros n. rewrite F1, flag_repeat, orb_false_r. reflexivity. }
  destruct (mark_up_ok first e1) as (e2 & -> & L2 & F2); auto.
  - intros n Hn. rewrite F. destruct (Nat.leb_spec first n); [|lia]. rewrite ex_leaf by assumption. reflexivity.
  - intros n _ Hn. rewrite F. destruct (Nat.leb_spec first n); [lia|reflexivity].
  - cbn [bind]. destruct (set_ok e2 0) as (e3 & -> & L3 & F3); [rewrite L2; unfold total; lia|].
    exists e3. split; [reflexivity|]. split; [congruence|]. intros n. rewrite F3.
    destruct (Nat.eqb_spec n 0) as [->|Hn]; [symmetry; apply ex_0|]. apply F2. assumption.
Qed.
End Ex.
