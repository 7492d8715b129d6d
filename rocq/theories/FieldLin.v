(** Linear algebra over the extension fields: sums, inner products, Lagrange coefficients. *)
From Coq Require Import Arith NArith ZArith List Bool Lia Field.
From Verif Require Import Prelude Clmul FieldModel FieldProofs FieldInv Gf8 PolyModel PolyProofs FieldSig Points FieldSpec Instances FieldApi ListSum.
Import ListNotations.
Local Open Scope N_scope.

Section Lin.
Context (lambda : nat) (c : fctx) (HI : init_extension_field lambda = Ok c).
Notation E := (elt lambda).
Notation ok := (api_ok lambda c HI).
Notation H0 := (horner gadd (gmul c)).
Notation sops := (s_ops (8 * lambda) c (linv_of lambda) ok).
Notation sinv := (s_inv (8 * lambda) c (linv_of lambda) ok).
Notation fe := (fel (8 * lambda)).
Notation fv := (val (8 * lambda)).
Lemma FT : field_theory (f0 sops) (f1 sops) (fadd sops) (fmul sops) (add_sub sops) (@id_opp fe) (fdiv sops sinv) sinv (@eq fe).
Proof. exact (s_field (8 * lambda) c (linv_of lambda) ok). Qed.
Add Field FF : FT.

Lemma E_0 : E 0. Proof. apply (val_elt lambda (f0 sops)). Qed.
Lemma E_1 : E 1. Proof. apply (val_elt lambda (f1 sops)). Qed.
Lemma E_add a b : E a -> E b -> E (gadd a b).
Proof. intros A B. apply (api_laws lambda c HI a b 0 A B E_0). Qed.
Lemma E_xor a b : E a -> E b -> E (N.lxor a b).
Proof. apply E_add. Qed.
Lemma E_mul a b : E (gmul c a b).
Proof. apply elt_iff, (mul_lt _ _ _ ok). Qed.
Lemma E_gsum n f : (forall i, (i < n)%nat -> E (f i)) -> E (gsum n f).
Proof. induction n; intros H; [apply E_0|]. rewrite gsum_S. apply E_xor; auto. Qed.
Lemma E_nth l k : Forall E l -> E (nth k l 0).
Proof.
  intros H. destruct (Nat.lt_ge_cases k (length l)) as [L|L]; [|rewrite nth_overflow by exact L; apply E_0].
  rewrite Forall_forall in H. apply H, nth_In. exact L.
Qed.
Lemma E_horner p x : Forall E p -> E x -> E (H0 p x).
Proof. intros Hp Hx. induction Hp; cbn [horner]; [apply E_0|]. apply E_add; [assumption|apply E_mul]. Qed.

Ltac lift x H := let y := fresh x in destruct (elt_val lambda x H) as [y ->]; clear H.
Ltac up := repeat match goal with
  | |- context [gmul c (fv ?a) (fv ?b)] => change (gmul c (fv a) (fv b)) with (fv (fmul sops a b))
  | |- context [gadd (fv ?a) (fv ?b)] => change (gadd (fv a) (fv b)) with (fv (fadd sops a b)) end.

Lemma g_distr_r a b d : E a -> E b -> E d -> gmul c a (gadd b d) = gadd (gmul c a b) (gmul c a d).
Proof. intros A B D. lift a A. lift b B. lift d D. up. f_equal. ring. Qed.
Lemma g_mul_comm a b : gmul c a b = gmul c b a.
Proof. apply mul_comm. Qed.
Lemma g_assoc a b d : E a -> E b -> E d -> gmul c (gmul c a b) d = gmul c a (gmul c b d).
Proof. intros A B D. lift a A. lift b B. lift d D. up. f_equal. ring. Qed.
Lemma g_mul_0_r a : gmul c a 0 = 0. Proof. apply (mul_0_r _ _ _ ok). Qed.
Lemma g_mul_0_l a : gmul c 0 a = 0. Proof. apply (mul_0_l _ _ _ ok). Qed.
Lemma g_mul_1_l a : E a -> gmul c 1 a = a. Proof. intros A. apply (mul_1_l _ _ _ ok). apply elt_iff. exact A. Qed.
Lemma g_mul_1_r a : E a -> gmul c a 1 = a. Proof. intros A. rewrite g_mul_comm. apply g_mul_1_l. exact A. Qed.
Lemma g_mul_swap a b d : E a -> E b -> E d -> gmul c a (gmul c b d) = gmul c b (gmul c a d).
Proof. intros A B D. lift a A. lift b B. lift d D. up. f_equal. ring. Qed.
(** the identity behind the check: (r S + s' L) (T + t' L) in the order the program multiplies it out *)
Lemma g_identity r S T L s t : E r -> E S -> E T -> E L -> E s -> E t ->
  gmul c (gadd (gmul c r S) (gmul c s L)) (gadd T (gmul c t L)) =
  gadd (gadd (gmul c (gadd (gmul c S T) (gmul c (gmul c S L) t)) r) (gmul c (gmul c T L) s)) (gmul c (gmul c (gmul c L L) s) t).
Proof. intros A B C D F G. lift r A. lift S B. lift T C. lift L D. lift s F. lift t G. up. f_equal. ring. Qed.

Lemma gmul_gsum a n f : E a -> (forall i, (i < n)%nat -> E (f i)) -> gmul c a (gsum n f) = gsum n (fun i => gmul c a (f i)).
Proof.
  intros A. induction n; intros Hf; [apply g_mul_0_r|]. rewrite !gsum_S. rewrite <- IHn by auto.
  apply (g_distr_r a (gsum n f) (f n)); auto. apply E_gsum. auto.
Qed.
Lemma dot_gsum xs ys n : length xs = n -> length ys = n ->
  dot_product c xs ys = Ok (gsum n (fun k => gmul c (nth k xs 0) (nth k ys 0))).
Proof.
  intros Lx Ly. rewrite (dot_product_ok _ _ _ ok) by congruence. f_equal. subst n.
  unfold gsum. revert ys Ly. induction xs as [|x xs IH]; destruct ys as [|y ys]; intros L; try discriminate L; [reflexivity|].
  cbn [sum_products length seq map xsum fold_right nth]. f_equal. rewrite <- seq_shift, map_map. cbn [nth]. apply (IH ys). cbn in L. lia.
Qed.

(** vectors *)
Lemma g_vadd a b : length a = length b -> Forall E a -> Forall E b ->
  exists s, vadd (gops c) a b = Ok s /\ length s = length a /\ Forall E s /\ forall x, E x -> H0 s x = gadd (H0 a x) (H0 b x).
Proof.
  intros L A B. destruct (elts_map lambda a A) as [a' ->]. destruct (elts_map lambda b B) as [b' ->]. rewrite !map_length in *.
  rewrite (v_vadd _ _ _ ok). rewrite (vadd_ok sops a' b' L). cbn [rmap].
  exists (map fv (zip_add sops a' b')). split; [reflexivity|]. rewrite map_length.
  split; [rewrite (zip_add_length sops); lia|]. split; [apply vals_elt|].
  intros x Hx. destruct (elt_val lambda x Hx) as [x' ->]. rewrite !(horner_peval lambda c HI). up. f_equal.
  apply (peval_zip_add sops sinv FT); exact L.
Qed.
Lemma g_vscale a s : Forall E a -> E s ->
  length (vscale (gops c) a s) = length a /\ Forall E (vscale (gops c) a s) /\ forall x, E x -> H0 (vscale (gops c) a s) x = gmul c (H0 a x) s.
Proof.
  intros A S. destruct (elts_map lambda a A) as [a' ->]. lift s S. rewrite (v_vscale _ _ _ ok). rewrite !map_length.
  split; [apply (vscale_length sops)|]. split; [apply vals_elt|]. intros x Hx. lift x Hx. rewrite !(horner_peval lambda c HI). up.
  f_equal. apply (peval_vscale sops sinv FT).
Qed.
Lemma g_repeat0 n x : E x -> H0 (repeat 0 n) x = 0.
Proof. intros Hx. induction n; cbn [repeat horner]; [reflexivity|]. rewrite IHn, g_mul_0_r. reflexivity. Qed.

(** Lagrange coefficients: the value at R of the k-th precomputed polynomial *)
Definition lag (pre : list (list N)) (k : nat) (R : N) : N := H0 (nth k pre []) R.
Lemma fv_sum n (g : nat -> fe) : fv (sum_k sops n g) = gsum n (fun i => fv (g i)).
Proof. induction n; [reflexivity|]. rewrite gsum_S, <- IHn. reflexivity. Qed.
Lemma nth_fv (l : list fe) k : nth k (map fv l) 0 = fv (nth k l (f0 sops)).
Proof. change 0 with (fv (f0 sops)). apply map_nth. Qed.

Record lagr (xs : list N) (pre : list (list N)) : Prop := mkLagr {
  lg_pre : precompute_lagrange_polynomials (gops c) xs = Ok pre;
  lg_len : length pre = length xs;
  lg_row : forall k, (k < length xs)%nat -> length (nth k pre []) = length xs /\ Forall E (nth k pre []);
  lg_elt : forall k R, E R -> E (lag pre k R);
  lg_interp : forall ys, length ys = length xs -> Forall E ys -> exists p, interpolate_with_precomputation (gops c) pre ys = Ok p /\
    length p = length xs /\ Forall E p /\ forall R, E R -> H0 p R = gsum (length xs) (fun k => gmul c (lag pre k R) (nth k ys 0));
  lg_value : forall p R, length p = length xs -> Forall E p -> E R ->
    gsum (length xs) (fun k => gmul c (lag pre k R) (H0 p (nth k xs 0))) = H0 p R;
  lg_delta : forall k j, (k < length xs)%nat -> (j < length xs)%nat -> lag pre k (nth j xs 0) = if (j =? k)%nat then 1 else 0;
  lg_neq0 : forall k R, (k < length xs)%nat -> E R -> (forall j, (j < length xs)%nat -> j <> k -> R <> nth j xs 0) -> lag pre k R <> 0
}.
Lemma except_in k (xs : list fe) x : In x (except k xs) -> exists j, (j < length xs)%nat /\ j <> k /\ x = nth j xs (f0 sops).
Proof.
  intros Hx. unfold except in Hx. apply in_app_or in Hx. destruct Hx as [Hx|Hx].
  - apply (In_nth _ _ (f0 sops)) in Hx. destruct Hx as (j & Hj & <-). rewrite firstn_length in Hj. exists j.
    split; [lia|]. split; [lia|]. clear -Hj. revert xs j Hj. induction k; intros xs j Hj; [lia|].
    destruct xs; [destruct j; reflexivity|]. destruct j; [reflexivity|]. cbn [firstn nth]. apply IHk. cbn [length] in Hj. lia.
  - apply (In_nth _ _ (f0 sops)) in Hx. destruct Hx as (j & Hj & <-). rewrite skipn_length in Hj. exists (S k + j)%nat.
    split; [lia|]. split; [lia|]. clear -Hj. revert xs Hj. induction (S k) as [|k' IH]; intros xs Hj; [reflexivity|].
    destruct xs; [destruct j; reflexivity|]. cbn [skipn Nat.add nth]. apply IH. cbn [length] in Hj. lia.
Qed.
Theorem lagr_exists xs : NoDup xs -> (0 < length xs)%nat -> Forall E xs -> exists pre, lagr xs pre.
Proof.
  intros ND Hpos Hx. destruct (elts_map lambda xs Hx) as [xs' ->]. rewrite map_length in Hpos. apply nodup_vals in ND.
  destruct (precompute_ok sops sinv FT (s_inv_spec _ _ _ ok) xs' ND) as (pre & E1 & L1 & R1).
  exists (map (map fv) pre).
  assert (Hl : forall k (R : fe), (k < length xs')%nat -> lag (map (map fv) pre) k (fv R) = fv (lagrange_at sops sinv xs' k R)).
  { intros k R Hk. unfold lag. change (@nil N) with (map fv []). rewrite map_nth, (horner_peval lambda c HI). f_equal. apply R1. exact Hk. }
  constructor; rewrite ?map_length; try exact L1.
  - rewrite (v_precompute _ _ _ ok), E1. reflexivity.
  - intros k Hk. change (@nil N) with (map fv []). rewrite map_nth, map_length. split; [apply R1; exact Hk|apply vals_elt].
  - intros k R HR. unfold lag. apply E_horner; [|exact HR]. change (@nil N) with (map fv []). rewrite map_nth. apply vals_elt.
  - intros ys Ly Hy. destruct (elts_map lambda ys Hy) as [ys' ->]. rewrite map_length in Ly.
    destruct (interpolate_ok sops sinv FT (s_inv_spec _ _ _ ok) xs' ys' ND Ly Hpos) as (pre' & p & E1' & E2 & E3 & _ & E5).
    rewrite E1 in E1'. injection E1' as <-. exists (map fv p). rewrite (v_interpolate _ _ _ ok), E2. split; [reflexivity|].
    rewrite map_length. split; [exact E3|]. split; [apply vals_elt|]. intros R HR. lift R HR.
    rewrite (horner_peval lambda c HI), E5, fv_sum. apply gsum_ext. intros k Hk. rewrite Hl by exact Hk. rewrite nth_fv. reflexivity.
  - intros p R Lp Hp HR. destruct (elts_map lambda p Hp) as [p' ->]. rewrite map_length in Lp. lift R HR.
    destruct (interpolate_ok sops sinv FT (s_inv_spec _ _ _ ok) xs' (map (peval sops p') xs') ND ltac:(apply map_length) Hpos) as (pre' & q & E1' & E2 & E3 & E4 & E5).
    rewrite E1 in E1'. injection E1' as <-.
    assert (Hn : forall k, (k < length xs')%nat -> nth k (map (peval sops p') xs') (f0 sops) = peval sops p' (nth k xs' (f0 sops))).
    { intros k Hk. rewrite (nth_indep _ _ (peval sops p' (f0 sops))) by (rewrite map_length; exact Hk). apply map_nth. }
    assert (p' = q) as ->.
    { apply (peval_unique sops sinv FT xs'); auto; try lia. intros x Hin. apply (In_nth _ _ (f0 sops)) in Hin. destruct Hin as (k & Hk & <-).
      rewrite E4 by exact Hk. rewrite Hn by exact Hk. reflexivity. }
    rewrite (horner_peval lambda c HI), E5, fv_sum. apply gsum_ext. intros k Hk. rewrite Hl by exact Hk. rewrite Hn by exact Hk.
    rewrite nth_fv, (horner_peval lambda c HI). reflexivity.
  - intros k j Hk Hj. rewrite nth_fv, Hl by exact Hk. rewrite (lagrange_delta sops sinv FT) by auto. destruct (j =? k)%nat; reflexivity.
  - intros k R Hk HR Hne. lift R HR. rewrite Hl by exact Hk. change 0 with (fv (f0 sops)). intros Ez. apply val_inj in Ez. revert Ez.
    apply (lagrange_neq0 sops sinv FT); auto. intros Hin. destruct (except_in _ _ _ Hin) as (j & Hj & Hjk & ->).
    apply (Hne j Hj Hjk). symmetry. apply nth_fv.
Qed.

(** lifting bytes commutes with sums *)
Lemma lift_elt x : x < 256 -> E (lift c x).
Proof. intros Hx. destruct (api_lift_hom lambda c HI) as (_ & _ & A). apply (A x x Hx Hx). Qed.
Lemma lift_gsum n f : (forall i, (i < n)%nat -> f i < 256) -> lift c (gsum n f) = gsum n (fun i => lift c (f i)).
Proof.
  destruct (api_lift_hom lambda c HI) as (A0 & _ & A).
  assert (B : forall n, (forall i, (i < n)%nat -> f i < 256) -> gsum n f < 256).
  { clear. intros n H. induction n; [reflexivity|]. rewrite gsum_S. apply (lxor_lt_pow2 _ _ 8); [apply IHn; auto|apply H; lia]. }
  induction n; intros Hf; [exact A0|]. rewrite !gsum_S, <- IHn by auto. apply (A (gsum n f) (f n)); auto.
Qed.
End Lin.
