(** GF(2^8) with the AES polynomial: specification, the byte multiplication and inversion of
    aes.cpp, and the lifting of GF(2^8) into the extension fields (lift_uint8_t). *)
From Coq Require Import Arith NArith ZArith List Bool Lia.
From Verif Require Import Prelude Clmul FieldModel FieldProofs.
Import ListNotations.
Local Open Scope N_scope.

(** ** Specification: polynomial product modulo x^8+x^4+x^3+x+1 (FIPS-197, section 4.2) *)
Definition rijndael_poly : N := 0x11b.
Fixpoint poly_rem (steps : nat) (p : N) : N :=   (* clears bits 8+steps-1 .. 8 of p *)
  match steps with
  | O => p
  | S k => poly_rem k (if N.testbit p (8 + N.of_nat k)
                       then N.lxor p (N.shiftl rijndael_poly (N.of_nat k)) else p)
  end.
Definition gf8_mul (a b : N) : N := poly_rem 7 (clmul a b).

(** ** Model of aes.cpp *)

(** multiply, aes.cpp:13-25.  [a] and [b] are unsigned int (a grows to at most 9 bits here:
    bit 8 is cancelled by the 0x11b mask whenever it is produced from bit 7). *)
Fixpoint multiply_loop (steps : nat) (a b result : N) : N :=
  match steps with
  | O => result
  | S k =>
    let mask := if N.odd b then 0xFF else 0 in                      (* (uint8_t)-(b & 1) *)
    let result := N.lxor result (N.land a mask) in
    let mask2 := if N.odd (N.shiftr a 7) then 0xFFFF else 0 in      (* (uint16_t)-((a>>7)&1) *)
    let a := N.land (N.shiftl a 1) (N.ones 32) in
    let a := N.lxor a (N.land 0x11b mask2) in
    multiply_loop k a (N.shiftr b 1) result
  end.
Definition multiply (a b : N) : N := multiply_loop 8 a b 0.

(** square, aes.cpp:27; inverse, aes.cpp:29-36 *)
Definition square (x : N) : N := multiply x x.
Definition inverse (x : N) : N :=
  let c3 := multiply (square x) x in
  let c7 := multiply (square c3) x in
  let c63 := multiply (square (square (square c7))) c7 in
  let c127 := multiply (square c63) x in
  square c127.

(** ** Exhaustive statements over bytes, checked by the kernel's VM *)
Definition all_bytes : list N := map N.of_nat (seq 0 256).
Lemma in_all_bytes b : b < 256 -> In b all_bytes.
Proof.
  intros H. unfold all_bytes. apply in_map_iff. exists (N.to_nat b). split.
  - apply N2Nat.id.
  - apply in_seq. lia.
Qed.
Lemma all_bytes_spec (p : N -> bool) : forallb p all_bytes = true -> forall b, b < 256 -> p b = true.
Proof. intros H b Hb. rewrite forallb_forall in H. apply H, in_all_bytes; auto. Qed.
Lemma all_bytes2_spec (p : N -> N -> bool) :
  forallb (fun a => forallb (p a) all_bytes) all_bytes = true ->
  forall a b, a < 256 -> b < 256 -> p a b = true.
Proof.
  intros H a b Ha Hb. apply all_bytes_spec; auto.
  apply (all_bytes_spec (fun a => forallb (p a) all_bytes)); auto.
Qed.

Lemma poly_rem_cong k p : cong rijndael_poly p (poly_rem k p).
Proof.
  revert p; induction k; intros p; cbn [poly_rem]; [apply cong_refl|].
  eapply cong_trans; [|apply IHk].
  destruct (N.testbit p (8 + N.of_nat k)); [|apply cong_refl].
  exists (2 ^ N.of_nat k). rewrite <- N.lxor_assoc, N.lxor_nilpotent, N.lxor_0_l.
  rewrite <- N.shiftl_1_l, clmul_shiftl_l, clmul_1_l. reflexivity.
Qed.

Lemma poly_rem_lt k : forall p, p < 2 ^ (8 + N.of_nat k) -> poly_rem k p < 2 ^ 8.
Proof.
  induction k; intros p H; cbn [poly_rem]; auto.
  apply IHk.
  replace (8 + N.of_nat (S k)) with (N.succ (8 + N.of_nat k)) in H by lia.
  destruct (N.testbit p (8 + N.of_nat k)) eqn:E.
  - destruct (N.eq_dec (N.lxor p (N.shiftl rijndael_poly (N.of_nat k))) 0) as [->|Hn].
    { apply N.neq_0_lt_0, N.pow_nonzero. discriminate. }
    assert (Hp : p <> 0) by (intros ->; rewrite N.bits_0 in E; discriminate).
    assert (Hr : N.shiftl rijndael_poly (N.of_nat k) <> 0).
    { rewrite N.shiftl_eq_0_iff. discriminate. }
    assert (Hl : N.log2 (N.shiftl rijndael_poly (N.of_nat k)) = 8 + N.of_nat k).
    { rewrite N.log2_shiftl by discriminate. change (N.log2 rijndael_poly) with 8. lia. }
    assert (Hlp : N.log2 p = 8 + N.of_nat k).
    { apply N.log2_bits_unique; auto. intros j Hj.
      rewrite <- (N.mod_small p _ H). apply N.mod_pow2_bits_high. lia. }
    apply lt_pow2_log2; auto.
    assert (Hle : N.log2 (N.lxor p (N.shiftl rijndael_poly (N.of_nat k))) <= 8 + N.of_nat k).
    { pose proof (N.log2_lxor p (N.shiftl rijndael_poly (N.of_nat k))). lia. }
    destruct (N.eq_dec (N.log2 (N.lxor p (N.shiftl rijndael_poly (N.of_nat k)))) (8 + N.of_nat k)) as [He|]; [|lia].
    pose proof (N.bit_log2 _ Hn) as Hb. rewrite He, N.lxor_spec, E in Hb.
    rewrite <- Hl, N.bit_log2 in Hb by auto. discriminate.
  - destruct (N.eq_dec p 0) as [->|Hp].
    { apply N.neq_0_lt_0, N.pow_nonzero. discriminate. }
    apply lt_pow2_log2; auto. apply lt_pow2_log2 in H; auto.
    destruct (N.eq_dec (N.log2 p) (8 + N.of_nat k)) as [He|]; [|lia].
    rewrite <- He, N.bit_log2 in E by auto. discriminate.
Qed.

(** gf8_mul really is the remainder of the product *)
Lemma gf8_mul_spec a b : a < 256 -> b < 256 ->
  gf8_mul a b < 256 /\ cong rijndael_poly (clmul a b) (gf8_mul a b).
Proof.
  intros Ha Hb. split; [|apply poly_rem_cong].
  apply (poly_rem_lt 7). destruct (clmul_lt a b 8 8 Ha Hb) as [H|[H|H]]; try discriminate. exact H.
Qed.

Lemma multiply_gf8 a b : a < 256 -> b < 256 -> multiply a b = gf8_mul a b.
Proof.
  intros Ha Hb. apply N.eqb_eq. revert a b Ha Hb. apply all_bytes2_spec.
  vm_compute. reflexivity.
Qed.

Lemma gf8_mul_comm a b : gf8_mul a b = gf8_mul b a.
Proof. unfold gf8_mul. rewrite clmul_comm. reflexivity. Qed.

Lemma inverse_byte a : a < 256 -> inverse a < 256.
Proof.
  intros Ha. apply N.ltb_lt. revert a Ha. apply all_bytes_spec. vm_compute. reflexivity.
Qed.

Lemma inverse_gf8 a : a < 256 -> a <> 0 -> gf8_mul a (inverse a) = 1.
Proof.
  intros Ha Hn.
  assert (H : ((a =? 0) || (gf8_mul a (inverse a) =? 1))%bool = true).
  { clear Hn. revert a Ha. apply all_bytes_spec. vm_compute. reflexivity. }
  apply orb_true_iff in H. destruct H as [H|H]; apply N.eqb_eq in H; congruence.
Qed.
Lemma inverse_0 : inverse 0 = 0.
Proof. reflexivity. Qed.
Lemma inverse_involutive a : a < 256 -> inverse (inverse a) = a.
Proof. intros Ha. apply N.eqb_eq. revert a Ha. apply all_bytes_spec. vm_compute. reflexivity. Qed.
Lemma inverse_neq0 a : a < 256 -> a <> 0 -> inverse a <> 0.
Proof.
  intros Ha Hn E. apply Hn. rewrite <- (inverse_involutive a Ha), E. reflexivity.
Qed.

(** ** Lifting *)
Definition lift_ok (c : fctx) : bool :=
  ((length (fc_lut c) =? 256)%nat && (lift c 0 =? 0) && (lift c 1 =? 1) &&
  forallb (fun a => (lift c a <? 2 ^ N.of_nat (8 * fc_byte_size c)) &&
    forallb (fun i => lift c (N.lxor a (2 ^ N.of_nat i)) =? N.lxor (lift c a) (lift c (2 ^ N.of_nat i)))
            (seq 0 8)) all_bytes &&
  forallb (fun a => forallb (fun i =>
      lift c (gf8_mul a (2 ^ N.of_nat i)) =? gmul c (lift c a) (lift c (2 ^ N.of_nat i)))
      (seq 0 8)) all_bytes &&
  forallb (fun a => (a =? 0) || negb (lift c a =? 0)) all_bytes)%bool.

Lemma lift_ok_16 : lift_ok ctx16 = true. Proof. vm_compute. reflexivity. Qed.
Lemma lift_ok_32 : lift_ok ctx32 = true. Proof. vm_compute. reflexivity. Qed.
Lemma lift_ok_40 : lift_ok ctx40 = true. Proof. vm_compute. reflexivity. Qed.
Lemma lift_ok_48 : lift_ok ctx48 = true. Proof. vm_compute. reflexivity. Qed.

Section Lift.
Context (n : nat) (c : fctx) (linv : list N) (OK : field_ok n c linv) (LOK : lift_ok c = true).
Notation q := (2 ^ N.of_nat n).

Lemma lift_facts :
  lift c 0 = 0 /\ lift c 1 = 1 /\
  (forall a, a < 256 -> lift c a < q) /\
  (forall a i, a < 256 -> (i < 8)%nat -> lift c (N.lxor a (2 ^ N.of_nat i)) = N.lxor (lift c a) (lift c (2 ^ N.of_nat i))) /\
  (forall a i, a < 256 -> (i < 8)%nat ->
     lift c (gf8_mul a (2 ^ N.of_nat i)) = gmul c (lift c a) (lift c (2 ^ N.of_nat i))) /\
  (forall a, a < 256 -> lift c a = 0 -> a = 0).
Proof.
  pose proof LOK as H. unfold lift_ok in H. rewrite !andb_true_iff in H.
  destruct H as [[[[[_ H1] H2] H3] H4] H5].
  apply N.eqb_eq in H1, H2.
  split; auto. split; auto. split; [|split; [|split]].
  - intros a Ha. pose proof (all_bytes_spec _ H3 a Ha) as H. cbv beta in H.
    apply andb_true_iff in H. destruct H as [H _]. apply N.ltb_lt in H.
    rewrite (fo_size _ _ _ OK). exact H.
  - intros a i Ha Hi. pose proof (all_bytes_spec _ H3 a Ha) as H. cbv beta in H.
    apply andb_true_iff in H. destruct H as [_ H]. rewrite forallb_forall in H.
    apply N.eqb_eq, H, in_seq. lia.
  - intros a i Ha Hi. pose proof (all_bytes_spec _ H4 a Ha) as H. cbv beta in H.
    rewrite forallb_forall in H. apply N.eqb_eq, H, in_seq. lia.
  - intros a Ha E. pose proof (all_bytes_spec _ H5 a Ha) as H. cbv beta in H.
    rewrite E in H. simpl in H. rewrite orb_false_r in H. apply N.eqb_eq in H. auto.
Qed.

Lemma byte_lxor a b : a < 256 -> b < 256 -> N.lxor a b < 256.
Proof. apply (lxor_lt_pow2 a b 8). Qed.
Lemma pow2_byte i : (i < 8)%nat -> 2 ^ N.of_nat i < 256.
Proof. intros. change 256 with (2 ^ 8). apply N.pow_lt_mono_r; lia. Qed.

Lemma lift_lt a : a < 256 -> lift c a < q.
Proof. pose proof lift_facts. intuition auto. Qed.
Lemma lift_0 : lift c 0 = 0.
Proof. pose proof lift_facts. intuition auto. Qed.
Lemma lift_1 : lift c 1 = 1.
Proof. pose proof lift_facts. intuition auto. Qed.

Lemma lift_add a b : a < 256 -> b < 256 -> lift c (N.lxor a b) = N.lxor (lift c a) (lift c b).
Proof.
  intros Ha Hb.
  enough (H : forall b, b < 2 ^ N.of_nat 8 ->
             b < 256 /\ forall a, a < 256 -> lift c (N.lxor a b) = N.lxor (lift c a) (lift c b)).
  { apply H; auto. }
  clear a b Ha Hb. apply closed_basis.
  - split; [reflexivity|]. intros a _. rewrite lift_0, !N.lxor_0_r. reflexivity.
  - intros x y [Hx Ex] [Hy Ey]. split; [apply byte_lxor; auto|].
    intros a Ha. rewrite <- N.lxor_assoc. rewrite Ey by (apply byte_lxor; auto).
    rewrite Ex by auto. rewrite N.lxor_assoc. f_equal. symmetry. apply Ey; auto.
  - intros i Hi. split; [apply pow2_byte; auto|]. intros a Ha. destruct lift_facts as [_ [_ [_ [H _]]]]. apply H; auto.
Qed.

Lemma gf8_mul_lt a b : a < 256 -> b < 256 -> gf8_mul a b < 256.
Proof. intros; apply gf8_mul_spec; auto. Qed.
Lemma gf8_cong_eq a b : a < 256 -> b < 256 -> cong rijndael_poly a b -> a = b.
Proof. apply (cong_unique rijndael_poly 8); [reflexivity|discriminate]. Qed.
Lemma gf8_mul_add a b d : a < 256 -> b < 256 -> d < 256 ->
  gf8_mul a (N.lxor b d) = N.lxor (gf8_mul a b) (gf8_mul a d).
Proof.
  intros Ha Hb Hd. apply gf8_cong_eq; auto using gf8_mul_lt, byte_lxor.
  apply cong_trans with (clmul a (N.lxor b d)).
  - apply cong_sym, gf8_mul_spec; auto using byte_lxor.
  - rewrite clmul_lxor_r. apply cong_lxor; apply gf8_mul_spec; auto.
Qed.

Lemma lift_mul a b : a < 256 -> b < 256 -> lift c (gf8_mul a b) = gmul c (lift c a) (lift c b).
Proof.
  intros Ha Hb.
  enough (H : forall b, b < 2 ^ N.of_nat 8 ->
             b < 256 /\ lift c (gf8_mul a b) = gmul c (lift c a) (lift c b)).
  { apply H; auto. }
  clear b Hb. apply closed_basis.
  - split; [reflexivity|]. rewrite lift_0, (mul_0_r n c linv OK).
    unfold gf8_mul. rewrite clmul_0_r. apply lift_0.
  - intros x y [Hx Ex] [Hy Ey]. split; [apply byte_lxor; auto|].
    rewrite gf8_mul_add by auto. rewrite !lift_add by auto using gf8_mul_lt.
    rewrite (mul_comm c (lift c a)), (mul_add_l n c linv OK) by auto using lift_lt.
    rewrite Ex, Ey. rewrite !(mul_comm c (lift c a)). reflexivity.
  - intros i Hi. split; [apply pow2_byte; auto|]. destruct lift_facts as [_ [_ [_ [_ [H _]]]]]. apply H; auto.
Qed.

Lemma lift_inj a b : a < 256 -> b < 256 -> lift c a = lift c b -> a = b.
Proof.
  intros Ha Hb E. apply N.lxor_eq.
  destruct lift_facts as [_ [_ [_ [_ [_ H]]]]]. apply H; [apply byte_lxor; auto|].
  rewrite lift_add, E by auto. apply N.lxor_nilpotent.
Qed.
End Lift.
