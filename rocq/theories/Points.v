(** The evaluation points produced by get_first_n_field_elements are powers of x;
    they are pairwise distinct and nonzero up to the multiplicative order of x. *)
From Coq Require Import Arith NArith ZArith Znumtheory List Bool Lia.
From Verif Require Import Prelude Clmul FieldModel FieldProofs FieldInv PolyModel PolyProofs FieldSig.
Import ListNotations.

(** ** Trial-division primality *)
Local Open Scope Z_scope.
Fixpoint zrange (start : Z) (n : nat) : list Z :=
  match n with O => [] | S n' => start :: zrange (start + 1) n' end.
Lemma in_zrange s n x : s <= x < s + Z.of_nat n -> In x (zrange s n).
Proof.
  revert s; induction n; intros s H; [lia|].
  cbn [zrange]. destruct (Z.eq_dec s x); [left; auto|right]. apply IHn. lia.
Qed.
Definition prime_check (p : Z) : bool :=
  (1 <? p) && forallb (fun d => negb (p mod d =? 0)) (zrange 2 (Z.to_nat (p - 2))).
Lemma prime_check_ok p : prime_check p = true -> prime p.
Proof.
  unfold prime_check. rewrite andb_true_iff. intros [H1 H2]. apply Z.ltb_lt in H1.
  apply prime_alt. split; auto. intros n Hn Hd.
  rewrite forallb_forall in H2.
  assert (In n (zrange 2 (Z.to_nat (p - 2)))) as Hin by (apply in_zrange; lia).
  apply H2 in Hin. apply negb_true_iff, Z.eqb_neq in Hin.
  apply Hin. apply Z.mod_divide; [lia|auto].
Qed.

Definition zprod (l : list Z) : Z := fold_right Z.mul 1 l.
Lemma prime_factor l k : Forall prime l -> 1 < k -> (k | zprod l) -> exists p, In p l /\ (p | k).
Proof.
  induction l; intros Hl Hk Hd.
  - simpl in Hd. apply Z.divide_1_r_nonneg in Hd; lia.
  - inversion Hl; subst. destruct (Zdivide_dec a k) as [Ha|Ha].
    + exists a. split; auto. left; auto.
    + assert (R : rel_prime a k) by (apply prime_rel_prime; auto).
      destruct IHl as [p [Hp1 Hp2]]; auto.
      * apply Gauss with a; auto. apply rel_prime_sym; auto.
      * exists p. split; auto. right; auto.
Qed.

(** ** Powers *)
Local Open Scope N_scope.
Section Order.
Context (n : nat) (c : fctx) (linv : list N) (OK : field_ok n c linv).
Notation q := (2 ^ N.of_nat n).
Notation mul := (gmul c).

Fixpoint gp (a : N) (k : nat) : N := match k with O => 1 | S k' => mul a (gp a k') end.
Fixpoint pw (a : N) (p : positive) : N :=
  match p with
  | xH => a
  | xO p' => let y := pw a p' in mul y y
  | xI p' => let y := pw a p' in mul a (mul y y)
  end.
Definition gpN (a k : N) : N := match k with 0 => 1 | Npos p => pw a p end.

Lemma gp_lt a k : a < q -> gp a k < q.
Proof. destruct k; simpl; intros. eapply one_lt_q; eauto. eapply mul_lt; eauto. Qed.
Lemma gp_add a j k : a < q -> gp a (j + k) = mul (gp a j) (gp a k).
Proof.
  intros Ha. induction j; simpl.
  - symmetry. apply (mul_1_l n c linv OK). apply gp_lt; auto.
  - rewrite IHj. symmetry. apply (mul_assoc n c linv OK); auto using gp_lt.
Qed.
Lemma pw_gp a p : a < q -> pw a p = gp a (Pos.to_nat p).
Proof.
  intros Ha. induction p; simpl pw.
  - rewrite IHp, Pos2Nat.inj_xI. cbn [gp]. rewrite <- gp_add by auto. do 2 f_equal. lia.
  - rewrite IHp, Pos2Nat.inj_xO. rewrite <- gp_add by auto. f_equal. lia.
  - change (Pos.to_nat 1) with 1%nat. cbn [gp]. rewrite (mul_comm c). symmetry. apply (mul_1_l n c linv OK); auto.
Qed.
Lemma gpN_gp a k : a < q -> gpN a k = gp a (N.to_nat k).
Proof. intros Ha. destruct k; auto. apply pw_gp; auto. Qed.
Lemma gp_mul a j k : a < q -> gp a j = 1 -> gp a (j * k) = 1.
Proof.
  intros Ha H. induction k.
  - rewrite Nat.mul_0_r. reflexivity.
  - rewrite Nat.mul_succ_r, gp_add, IHk, H by auto. apply (mul_1_l n c linv OK). eapply one_lt_q; eauto.
Qed.
Lemma gp_cancel a j k : a < q -> a <> 0 -> gp a (j + k) = gp a j -> gp a k = 1.
Proof.
  intros Ha Hn H.
  assert (Hj : gp a j <> 0).
  { induction j; simpl in *; [discriminate|]. intros E.
    destruct (exists_inverse n c linv OK a Ha Hn) as [b [Hb Hab]].
    assert (E2 : gp a j = 0).
    { transitivity (mul (mul b a) (gp a j)).
      - rewrite (mul_comm c b), Hab. symmetry. apply (mul_1_l n c linv OK). apply gp_lt; auto.
      - rewrite (mul_assoc n c linv OK) by auto using gp_lt. rewrite E. apply (mul_0_r n c linv OK). }
    apply IHj; auto. rewrite gp_add, E2 by auto. apply (mul_0_l n c linv OK). }
  destruct (exists_inverse n c linv OK (gp a j)) as [b [Hb Hab]]; auto using gp_lt.
  rewrite gp_add in H by auto.
  transitivity (mul (mul b (gp a j)) (gp a k)).
  - rewrite (mul_comm c b), Hab. symmetry. apply (mul_1_l n c linv OK). apply gp_lt; auto.
  - rewrite (mul_assoc n c linv OK) by auto using gp_lt. rewrite H, (mul_comm c b). auto.
Qed.

Definition order_check (a M : N) (ps : list N) : bool :=
  (gpN a M =? 1) && (M =? fold_right N.mul 1 ps) &&
  forallb (fun p => prime_check (Z.of_N p) && negb (gpN a (M / p) =? 1)) ps.

Lemma zprod_N ps : zprod (map Z.of_N ps) = Z.of_N (fold_right N.mul 1 ps).
Proof. induction ps; simpl; auto. rewrite IHps, N2Z.inj_mul. reflexivity. Qed.

Lemma order_ok a M ps : a < q -> a <> 0 -> order_check a M ps = true ->
  forall d, (0 < d)%nat -> N.of_nat d < M -> gp a d <> 1.
Proof.
  intros Ha Ha0 H d Hd HdM E. unfold order_check in H. rewrite !andb_true_iff in H.
  destruct H as [[H1 H2] H3]. apply N.eqb_eq in H1, H2. rewrite forallb_forall in H3.
  rewrite gpN_gp in H1 by auto.
  set (m := N.to_nat M) in *.
  assert (Hm : (d < m)%nat) by (unfold m; lia).
  set (g := Nat.gcd d m).
  assert (Eg : gp a g = 1).
  { destruct (Nat.gcd_bezout_pos d m Hd) as [u [v B]]. fold g in B.
    assert (E1 : gp a (u * d) = 1) by (rewrite Nat.mul_comm; apply gp_mul; auto).
    assert (E2 : gp a (v * m) = 1) by (rewrite Nat.mul_comm; apply gp_mul; auto).
    rewrite B in E1. rewrite Nat.add_comm in E1. apply (gp_cancel a (v * m)); auto. congruence. }
  destruct (Nat.gcd_divide_r d m) as [k Hk]. fold g in Hk.
  destruct (Nat.gcd_divide_l d m) as [k' Hk']. fold g in Hk'.
  assert (Hg : (0 < g)%nat) by (destruct g; lia).
  assert (Hgd : (g <= d)%nat) by (destruct k'; nia).
  assert (Hk1 : (1 < k)%nat) by nia.
  destruct (prime_factor (map Z.of_N ps) (Z.of_nat k)) as [p [Hp1 Hp2]].
  - apply Forall_forall. intros p Hp. apply in_map_iff in Hp. destruct Hp as [p' [<- Hp']].
    apply H3 in Hp'. apply andb_true_iff in Hp'. apply prime_check_ok. tauto.
  - lia.
  - rewrite zprod_N, <- H2. exists (Z.of_nat g).
    rewrite <- Nat2Z.inj_mul, Nat.mul_comm, <- Hk. unfold m. lia.
  - apply in_map_iff in Hp1. destruct Hp1 as [p' [<- Hp']].
    apply H3 in Hp'. apply andb_true_iff in Hp'. destruct Hp' as [Hpr Hpw].
    apply prime_check_ok in Hpr. destruct Hpr as [Hpr _].
    apply negb_true_iff, N.eqb_neq in Hpw. apply Hpw.
    destruct Hp2 as [w Hw].
    assert (Hw0 : (0 <= w)%Z) by nia.
    assert (EM : M = p' * N.of_nat (g * Z.to_nat w)).
    { assert (Z.of_N M = Z.of_nat (k * g)) by (rewrite <- Hk; unfold m; lia). nia. }
    rewrite EM. rewrite N.mul_comm, N.div_mul by lia.
    rewrite gpN_gp by auto. rewrite Nat2N.id. apply gp_mul; auto.
Qed.

Lemma first_elements_gp a k : forall j, a < q -> a = 2 ->
  first_elements_loop c k (gp a (S j)) = map (gp a) (seq (S j) k).
Proof.
  induction k; intros j Ha E; auto. cbn [first_elements_loop seq map]. f_equal.
  rewrite <- IHk by auto. cbn [gp]. rewrite E. f_equal. apply (mul_comm c).
Qed.

Lemma two_lt : 2 < q.
Proof.
  pose proof (fo_n _ _ _ OK). pose proof (fo_size _ _ _ OK).
  apply N.lt_le_trans with (2 ^ 8); [reflexivity|]. apply pow2_le_mono. lia.
Qed.

Lemma first_elements_eq k : get_first_n_field_elements c k = map (gp 2) (seq 1 k).
Proof.
  unfold get_first_n_field_elements.
  rewrite <- (first_elements_gp 2 k 0) by (auto; apply two_lt).
  cbn [gp]. rewrite (mul_comm c), (mul_1_l n c linv OK) by apply two_lt. reflexivity.
Qed.

Lemma gp_neq0 k : gp 2 k <> 0.
Proof.
  induction k; simpl; [discriminate|]. intros E.
  destruct (exists_inverse n c linv OK 2 two_lt) as [b [Hb Hab]]; [discriminate|].
  apply IHk. transitivity (mul (mul b 2) (gp 2 k)).
  - rewrite (mul_comm c b), Hab. symmetry. apply (mul_1_l n c linv OK). apply gp_lt, two_lt.
  - rewrite (mul_assoc n c linv OK); auto using gp_lt, two_lt. rewrite E. apply (mul_0_r n c linv OK).
Qed.

Theorem first_elements_distinct M ps : order_check 2 M ps = true ->
  forall k, N.of_nat k <= M ->
  NoDup (get_first_n_field_elements c k) /\
  Forall (fun x => x <> 0 /\ x < q) (get_first_n_field_elements c k).
Proof.
  intros HO k Hk. rewrite first_elements_eq. split.
  - apply NoDup_nth with (d := gp 2 0). rewrite map_length, seq_length. intros i j Hi Hj E.
    rewrite !map_nth, !seq_nth in E by auto.
    assert (G : forall i j, (i < k)%nat -> (j < k)%nat -> (i < j)%nat -> gp 2 (1 + i) = gp 2 (1 + j) -> False).
    { clear i j Hi Hj E. intros i j Hi Hj Hij E.
      apply (order_ok 2 M ps two_lt ltac:(discriminate) HO (j - i)%nat); [lia|lia|].
      apply (gp_cancel 2 (1 + i)); [apply two_lt|discriminate|].
      replace (1 + i + (j - i))%nat with (1 + j)%nat by lia. auto. }
    destruct (Nat.lt_trichotomy i j) as [Hl|[Hl|Hl]]; auto; exfalso; eauto.
  - apply Forall_forall. intros x Hx. apply in_map_iff in Hx. destruct Hx as [i [<- _]].
    split; [apply gp_neq0|apply gp_lt, two_lt].
Qed.
End Order.

(** the multiplicative order of x in each field *)
Definition ord16 : N := 21845.
Definition ord32 : N := 1431655765.
Definition ord40 : N := 1099511627775.
Definition ord48 : N := 6254999482459.
Lemma order16 : order_check ctx16 2 ord16 [5; 17; 257] = true.
Proof. vm_compute. reflexivity. Qed.
Lemma order32 : order_check ctx32 2 ord32 [5; 17; 257; 65537] = true.
Proof. vm_compute. reflexivity. Qed.
Lemma order40 : order_check ctx40 2 ord40 [3; 5; 5; 11; 17; 31; 41; 61681] = true.
Proof. vm_compute. reflexivity. Qed.
Lemma order48 : order_check ctx48 2 ord48 [7; 13; 17; 97; 241; 257; 673] = true.
Proof. vm_compute. reflexivity. Qed.
