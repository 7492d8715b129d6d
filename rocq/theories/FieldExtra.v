(** Lemmas used by the property files PropField.v and PropParams.v. *)
From Coq Require Import Arith NArith ZArith List Bool Lia.
From Verif Require Import Prelude Clmul FieldModel FieldProofs FieldInv Gf8 PolyModel PolyProofs FieldSig Points FieldSpec FieldApi Instances.
Import ListNotations.
Local Open Scope N_scope.

Lemma init_ok_iff lambda : (exists c, init_extension_field lambda = Ok c) <->
  (lambda = 2 \/ lambda = 4 \/ lambda = 5 \/ lambda = 6)%nat.
Proof.
  split.
  - intros [c H]. destruct (api_cases lambda c H) as [[-> _]|[[-> _]|[[-> _]|[-> _]]]]; auto.
  - intros [->|[->|[->| ->]]]; eexists; reflexivity.
Qed.

Lemma barret_ok x : x < 2 ^ 64 -> reduce_GF2_32_barret x = reduce_GF2_32 x.
Proof.
  intros Hx.
  revert x Hx. change (2 ^ 64) with (2 ^ N.of_nat 64). apply closed_basis.
  - reflexivity.
  - intros a b Ha Hb. rewrite reduce_32_barret_additive, reduce_32_additive, Ha, Hb. reflexivity.
  - intros i Hi.
    assert (B : allb 64 (fun i => reduce_GF2_32_barret (2 ^ N.of_nat i) =? reduce_GF2_32 (2 ^ N.of_nat i)) = true)
      by (vm_compute; reflexivity).
    apply N.eqb_eq. apply (allb_spec _ _ B i Hi).
Qed.

(** unique remainder: used to read C12 as "the" remainder *)
Lemma api_reduce_unique lambda c : init_extension_field lambda = Ok c ->
  forall x, x < 2 ^ (16 * N.of_nat lambda) -> forall r,
  is_remainder (modulus_of lambda) x r <-> fc_reduce c x = r.
Proof.
  intros HI x Hx r. pose proof (api_reduce_elt lambda c HI x Hx) as H. split.
  - intros Hr. apply (remainder_unique (modulus_of lambda) x); auto.
    apply (modulus_neq0 lambda c HI).
  - intros <-. auto.
Qed.

Lemma builtin_field I : builtin I -> exists c, init_extension_field (lambda I) = Ok c.
Proof. intros H. apply init_ok_iff. destruct (builtin_facts I H) as [_ [_ [_ [_ L]]]]. tauto. Qed.

Lemma builtin_points I c : builtin I -> init_extension_field (lambda I) = Ok c ->
  forall k, (k <= 2 * m2 I + 1)%nat ->
  let xs := get_first_n_field_elements c k in
  NoDup xs /\ length xs = k /\ Forall (fun x => x <> 0 /\ elt (lambda I) x) xs /\
  forall a b, In a xs -> In b xs -> a <> b ->
    exists i, ginverse c (gadd a b) = Ok i /\ gmul c (gadd a b) i = 1.
Proof.
  intros HB HI k Hk xs.
  assert (M : (2 * m2 I + 1 <=? 100)%nat = true).
  { apply (builtin_forall (fun I => 2 * m2 I + 1 <=? 100)%nat); auto. }
  apply Nat.leb_le in M.
  destruct (api_points (lambda I) c HI k ltac:(lia)) as [A [B C]].
  split; auto. split; auto. split; auto. intros a b Ha Hb Hne.
  fold xs in C. rewrite Forall_forall in C. destruct (C a Ha) as [_ Ea], (C b Hb) as [_ Eb].
  assert (El : elt (lambda I) (gadd a b)).
  { apply (api_laws (lambda I) c HI a b a Ea Eb Ea). }
  destruct (api_inverse (lambda I) c HI 64%Z _ El) as [i [_ [E [_ [_ Hm]]]]].
  exists i. split; auto. apply Hm. intros Z. apply Hne. apply N.lxor_eq. exact Z.
Qed.

Lemma interp_throws c pre ys :
  length pre <> length ys \/ length ys = 0%nat ->
  interpolate_with_precomputation (gops c) pre ys = Throw EInterpSizes.
Proof.
  intros H. unfold interpolate_with_precomputation.
  replace (negb (length pre =? length ys)%nat || (length ys =? 0)%nat) with true; auto.
  symmetry. apply orb_true_iff. destruct H as [H|H].
  - left. apply negb_true_iff, Nat.eqb_neq; auto.
  - right. apply Nat.eqb_eq; auto.
Qed.

Lemma inverse_sbox a : a < 256 -> inverse a < 256 /\ (a = 0 -> inverse a = 0) /\
  (a <> 0 -> aes_product a (inverse a) 1) /\ inverse (inverse a) = a.
Proof.
  intros Ha. split; [apply inverse_byte; auto|]. split; [intros ->; reflexivity|].
  split; [|apply inverse_involutive; auto]. intros Hn.
  apply (aes_product_iff a (inverse a) 1 Ha (inverse_byte a Ha)). symmetry. apply inverse_gf8; auto.
Qed.
Lemma multiply_is_product a b : a < 256 -> b < 256 -> aes_product a b (multiply a b).
Proof. intros Ha Hb. apply aes_product_iff; auto. apply multiply_gf8; auto. Qed.

Lemma params_valid p :
  ((0 < p < 24)%Z -> exists I, banquet_instance_get p = Ok I) /\
  ((p <= 0 \/ 24 <= p)%Z -> banquet_instance_get p = Throw EInvalidSet).
Proof.
  split; intros H.
  - unfold banquet_instance_get.
    replace ((p <=? PARAMETER_SET_INVALID) || (PARAMETER_SET_MAX_INDEX <=? p))%Z with false.
    + unfold get. destruct (nth_error instances (Z.to_nat p)) eqn:E; eauto.
      apply nth_error_None in E. simpl in E. lia.
    + symmetry. apply orb_false_iff. unfold PARAMETER_SET_INVALID, PARAMETER_SET_MAX_INDEX.
      split; apply Z.leb_gt; lia.
  - unfold banquet_instance_get.
    replace ((p <=? PARAMETER_SET_INVALID) || (PARAMETER_SET_MAX_INDEX <=? p))%Z with true; auto.
    symmetry. apply orb_true_iff. unfold PARAMETER_SET_INVALID, PARAMETER_SET_MAX_INDEX.
    destruct H; [left|right]; apply Z.leb_le; lia.
Qed.

Lemma params_self p I : banquet_instance_get p = Ok I -> p <> 7%Z -> p <> 8%Z -> Z.of_nat (i_params I) = p.
Proof.
  unfold banquet_instance_get, PARAMETER_SET_INVALID, PARAMETER_SET_MAX_INDEX.
  destruct (p <=? 0)%Z eqn:E1; [discriminate|]. destruct (24 <=? p)%Z eqn:E2; [discriminate|].
  cbn [orb]. apply Z.leb_gt in E1, E2. intros H H7 H8.
  assert (G : forallb (fun k => (k =? 0)%nat || (k =? 7)%nat || (k =? 8)%nat ||
     match nth_error instances k with Some J => (i_params J =? k)%nat | None => false end) (seq 0 24) = true)
    by reflexivity.
  rewrite forallb_forall in G. specialize (G (Z.to_nat p)). rewrite in_seq in G.
  specialize (G ltac:(lia)). rewrite !orb_true_iff in G.
  unfold get in H. destruct (nth_error instances (Z.to_nat p)) eqn:E; inversion H; subst.
  destruct G as [[[G|G]|G]|G]; apply Nat.eqb_eq in G; lia.
Qed.

Lemma ceil_log2_same x : 1 <= x < 2 ^ 32 -> ceil_log2_with clz_portable x = ceil_log2 x.
Proof.
  intros H. unfold ceil_log2, ceil_log2_with. destruct (N.eqb_spec x 0); auto.
  rewrite clz_portable_ok by lia. reflexivity.
Qed.
