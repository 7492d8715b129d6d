(** GF(2)[x] represented by binary naturals: bit i is the coefficient of x^i.
    Addition is [N.lxor]; [clmul] is the carry-less product.  This is the specification
    against which the field arithmetic of field.cpp is judged. *)
From Coq Require Import Arith NArith List Bool Lia.
From Verif Require Import Prelude.
Import ListNotations.
Local Open Scope N_scope.

Fixpoint pclmul (a : positive) (b : N) : N :=
  match a with
  | xH => b
  | xO a' => N.double (pclmul a' b)
  | xI a' => N.lxor b (N.double (pclmul a' b))
  end.

Definition clmul (a b : N) : N :=
  match a with 0 => 0 | Npos p => pclmul p b end.

Lemma double_lxor a b : N.double (N.lxor a b) = N.lxor (N.double a) (N.double b).
Proof.
  rewrite !N.double_spec. rewrite !(N.mul_comm 2).
  change 2 with (2 ^ 1). rewrite <- !N.shiftl_mul_pow2. apply N.shiftl_lxor.
Qed.

Lemma lxor_xchg a b c d : N.lxor (N.lxor a b) (N.lxor c d) = N.lxor (N.lxor a c) (N.lxor b d).
Proof.
  rewrite !N.lxor_assoc. f_equal. rewrite <- !N.lxor_assoc. f_equal. apply N.lxor_comm.
Qed.

Lemma pclmul_lxor_r p b c : pclmul p (N.lxor b c) = N.lxor (pclmul p b) (pclmul p c).
Proof.
  induction p; simpl; auto.
  - rewrite IHp, double_lxor. apply lxor_xchg.
  - rewrite IHp. apply double_lxor.
Qed.

Lemma clmul_lxor_r a b c : clmul a (N.lxor b c) = N.lxor (clmul a b) (clmul a c).
Proof. destruct a; simpl; auto. apply pclmul_lxor_r. Qed.

Lemma clmul_0_l a : clmul 0 a = 0.
Proof. reflexivity. Qed.
Lemma clmul_0_r a : clmul a 0 = 0.
Proof. destruct a; simpl; auto. induction p; simpl; auto; rewrite IHp; reflexivity. Qed.
Lemma clmul_1_l a : clmul 1 a = a.
Proof. reflexivity. Qed.
Lemma clmul_double_l a b : clmul (N.double a) b = N.double (clmul a b).
Proof. destruct a; reflexivity. Qed.
Lemma clmul_succ_double_l a b : clmul (N.succ_double a) b = N.lxor b (N.double (clmul a b)).
Proof. destruct a; simpl; auto. rewrite N.lxor_0_r. reflexivity. Qed.
Lemma clmul_double_r a b : clmul a (N.double b) = N.double (clmul a b).
Proof.
  destruct a; auto. simpl. induction p; simpl; auto; rewrite IHp; auto.
  rewrite double_lxor. reflexivity.
Qed.
Lemma clmul_1_r a : clmul a 1 = a.
Proof.
  destruct a; auto. simpl. induction p; simpl; auto; rewrite IHp; reflexivity.
Qed.

Lemma succ_double_lxor a : N.succ_double a = N.lxor 1 (N.double a).
Proof. destruct a; reflexivity. Qed.

Lemma N_binary_ind (P : N -> Prop) :
  P 0 -> (forall a, P a -> P (N.double a)) -> (forall a, P a -> P (N.succ_double a)) -> forall a, P a.
Proof.
  intros H0 H1 H2 a. destruct a; auto.
  induction p.
  - apply (H2 (Npos p)); auto.
  - apply (H1 (Npos p)); auto.
  - apply (H2 0); auto.
Qed.

Lemma clmul_comm a b : clmul a b = clmul b a.
Proof.
  revert b; induction a using N_binary_ind; intros b.
  - rewrite clmul_0_r. reflexivity.
  - rewrite clmul_double_l, clmul_double_r, IHa. reflexivity.
  - rewrite clmul_succ_double_l, succ_double_lxor, clmul_lxor_r, clmul_1_r, clmul_double_r, IHa.
    reflexivity.
Qed.

Lemma clmul_lxor_l a b c : clmul (N.lxor a b) c = N.lxor (clmul a c) (clmul b c).
Proof. rewrite !(clmul_comm _ c). apply clmul_lxor_r. Qed.

Lemma clmul_assoc a b c : clmul (clmul a b) c = clmul a (clmul b c).
Proof.
  induction a using N_binary_ind.
  - reflexivity.
  - rewrite !clmul_double_l. rewrite IHa. reflexivity.
  - rewrite !clmul_succ_double_l, clmul_lxor_l, clmul_double_l, IHa. reflexivity.
Qed.

Lemma clmul_shiftl_l a b k : clmul (N.shiftl a k) b = N.shiftl (clmul a b) k.
Proof.
  induction k using N.peano_ind.
  - rewrite !N.shiftl_0_r. reflexivity.
  - rewrite !N.shiftl_succ_r. rewrite clmul_double_l, IHk. reflexivity.
Qed.

(** ** Degree *)
Lemma log2_double a : a <> 0 -> N.log2 (N.double a) = N.succ (N.log2 a).
Proof. intros. rewrite N.double_spec. apply N.log2_double. lia. Qed.

Lemma lxor_log2_lt a b : N.log2 a < N.log2 b -> N.log2 (N.lxor a b) = N.log2 b.
Proof.
  intros H.
  assert (Hb : b <> 0) by (intros ->; simpl in H; lia).
  apply N.log2_bits_unique.
  - rewrite N.lxor_spec, (N.bits_above_log2 a) by auto. rewrite N.bit_log2 by auto. reflexivity.
  - intros m Hm. rewrite N.lxor_spec, !N.bits_above_log2; auto. lia.
Qed.

Lemma double_neq0 a : a <> 0 -> N.double a <> 0.
Proof. destruct a; simpl; congruence. Qed.

Lemma clmul_log2 a b : a <> 0 -> b <> 0 ->
  clmul a b <> 0 /\ N.log2 (clmul a b) = N.log2 a + N.log2 b.
Proof.
  intros Ha Hb. revert Ha. induction a using N_binary_ind; intros Ha.
  - congruence.
  - assert (a <> 0) by (intros ->; simpl in Ha; congruence).
    destruct (IHa H) as [H1 H2].
    rewrite clmul_double_l. split.
    + apply double_neq0; auto.
    + rewrite !log2_double by auto. rewrite H2. lia.
  - destruct (N.eq_dec a 0) as [->|Hn].
    + simpl. split; auto.
    + destruct (IHa Hn) as [H1 H2].
      rewrite clmul_succ_double_l.
      assert (HL : N.log2 (N.lxor b (N.double (clmul a b))) = N.log2 (N.double (clmul a b))).
      { apply lxor_log2_lt. rewrite log2_double by auto. rewrite H2. lia. }
      rewrite log2_double in HL by auto.
      split.
      * intros E. rewrite E in HL. simpl in HL. lia.
      * rewrite HL, H2. rewrite N.succ_double_spec.
        rewrite N.log2_succ_double by lia. lia.
Qed.

Lemma clmul_eq0 a b : clmul a b = 0 -> a = 0 \/ b = 0.
Proof.
  intros H. destruct (N.eq_dec a 0); auto. destruct (N.eq_dec b 0); auto.
  destruct (clmul_log2 a b); auto. congruence.
Qed.

Lemma lt_pow2_log2 a n : a <> 0 -> (a < 2 ^ n <-> N.log2 a < n).
Proof. intros. apply N.log2_lt_pow2. lia. Qed.

Lemma clmul_lt a b n m : a < 2 ^ n -> b < 2 ^ m -> clmul a b < 2 ^ (n + m - 1) \/ n = 0 \/ m = 0.
Proof.
  intros Ha Hb.
  destruct (N.eq_dec n 0); auto. destruct (N.eq_dec m 0); auto. left.
  destruct (N.eq_dec a 0) as [->|Hna].
  - simpl. apply N.neq_0_lt_0, N.pow_nonzero. discriminate.
  - destruct (N.eq_dec b 0) as [->|Hnb].
    + rewrite clmul_0_r. apply N.neq_0_lt_0, N.pow_nonzero. discriminate.
    + destruct (clmul_log2 a b Hna Hnb) as [H1 H2].
      apply lt_pow2_log2 in Ha; auto. apply lt_pow2_log2 in Hb; auto.
      apply lt_pow2_log2; auto. rewrite H2. lia.
Qed.

(** ** Congruence modulo a polynomial *)
Definition cong (m a b : N) : Prop := exists q, N.lxor a b = clmul q m.

Lemma cong_refl m a : cong m a a.
Proof. exists 0. apply N.lxor_nilpotent. Qed.
Lemma cong_sym m a b : cong m a b -> cong m b a.
Proof. intros [q H]. exists q. rewrite N.lxor_comm. auto. Qed.
Lemma cong_trans m a b c : cong m a b -> cong m b c -> cong m a c.
Proof.
  intros [q H] [q' H']. exists (N.lxor q q'). rewrite clmul_lxor_l, <- H, <- H'.
  rewrite !N.lxor_assoc. f_equal. rewrite <- N.lxor_assoc, N.lxor_nilpotent. reflexivity.
Qed.
Lemma cong_lxor m a a' b b' : cong m a a' -> cong m b b' -> cong m (N.lxor a b) (N.lxor a' b').
Proof.
  intros [q H] [q' H']. exists (N.lxor q q'). rewrite clmul_lxor_l, <- H, <- H'. apply lxor_xchg.
Qed.
Lemma cong_clmul m a a' b b' : cong m a a' -> cong m b b' -> cong m (clmul a b) (clmul a' b').
Proof.
  intros [q H] [q' H']. apply cong_trans with (clmul a' b).
  - exists (clmul q b). rewrite <- clmul_lxor_l, H, !clmul_assoc. f_equal. apply clmul_comm.
  - exists (clmul a' q'). rewrite <- clmul_lxor_r, H', clmul_assoc. reflexivity.
Qed.

Lemma cong_unique m n a b : N.log2 m = n -> m <> 0 -> a < 2 ^ n -> b < 2 ^ n -> cong m a b -> a = b.
Proof.
  intros Hm Hm0 Ha Hb [q H].
  destruct (N.eq_dec q 0) as [->|Hq].
  - simpl in H. apply N.lxor_eq in H. auto.
  - destruct (clmul_log2 q m Hq Hm0) as [H1 H2].
    assert (Hlt := lxor_lt_pow2 a b n Ha Hb). rewrite H in Hlt.
    apply lt_pow2_log2 in Hlt; auto. rewrite H2 in Hlt. lia.
Qed.

(** ** Additive (GF(2)-linear) maps are determined on powers of two *)
Definition additive (f : N -> N) : Prop := forall a b, f (N.lxor a b) = N.lxor (f a) (f b).

Lemma additive_0 f : additive f -> f 0 = 0.
Proof. intros H. specialize (H 0 0). rewrite !N.lxor_nilpotent in H. exact H. Qed.

Lemma split_top a n : a < 2 ^ (N.succ n) ->
  exists l, l < 2 ^ n /\ (a = l \/ a = N.lxor (2 ^ n) l).
Proof.
  intros H. exists (a mod 2 ^ n). split.
  - apply N.mod_lt, N.pow_nonzero. discriminate.
  - destruct (N.testbit a n) eqn:E.
    + right. apply N.bits_inj. intros i. rewrite N.lxor_spec.
      destruct (N.lt_trichotomy i n) as [Hi|[->|Hi]].
      * rewrite N.mod_pow2_bits_low, N.pow2_bits_false by lia. rewrite xorb_false_l. reflexivity.
      * rewrite N.mod_pow2_bits_high, N.pow2_bits_true by lia. rewrite E. reflexivity.
      * rewrite N.mod_pow2_bits_high, N.pow2_bits_false by lia.
        rewrite <- (N.mod_small a _ H). rewrite N.mod_pow2_bits_high by lia. reflexivity.
    + left. apply N.bits_inj. intros i.
      destruct (N.lt_trichotomy i n) as [Hi|[->|Hi]].
      * rewrite N.mod_pow2_bits_low by lia. reflexivity.
      * rewrite N.mod_pow2_bits_high by lia. rewrite E. reflexivity.
      * rewrite N.mod_pow2_bits_high by lia.
        rewrite <- (N.mod_small a _ H). rewrite N.mod_pow2_bits_high by lia. reflexivity.
Qed.

Lemma closed_basis (P : N -> Prop) n :
  P 0 -> (forall a b, P a -> P b -> P (N.lxor a b)) ->
  (forall i, (i < n)%nat -> P (2 ^ N.of_nat i)) ->
  forall a, a < 2 ^ N.of_nat n -> P a.
Proof.
  intros H0 Hx. induction n; intros Hb a Ha.
  - simpl in Ha. assert (a = 0) by lia. subst; auto.
  - rewrite Nat2N.inj_succ in Ha.
    assert (IH : forall a, a < 2 ^ N.of_nat n -> P a) by (apply IHn; intros; apply Hb; lia).
    destruct (split_top a _ Ha) as [l [Hl [->| ->]]].
    + auto.
    + apply Hx; auto.
Qed.

Lemma additive_ext f g n :
  additive f -> additive g ->
  (forall i, (i < n)%nat -> f (2 ^ N.of_nat i) = g (2 ^ N.of_nat i)) ->
  forall a, a < 2 ^ N.of_nat n -> f a = g a.
Proof.
  intros Hf Hg Hb. apply closed_basis with (P := fun a => f a = g a); auto.
  - rewrite !additive_0; auto.
  - intros a b Ha Hb'. rewrite Hf, Hg, Ha, Hb'. reflexivity.
Qed.

(** boolean check of a statement on all i < n, to be discharged by computation *)
Definition allb (n : nat) (p : nat -> bool) : bool := forallb p (seq 0 n).
Lemma allb_spec n p : allb n p = true -> forall i, (i < n)%nat -> p i = true.
Proof.
  unfold allb. rewrite forallb_forall. intros H i Hi. apply H. apply in_seq. lia.
Qed.
