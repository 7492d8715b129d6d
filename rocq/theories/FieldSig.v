(** The extension fields as types with Leibniz equality, and transfer of the polynomial
    functions between that type and the uint64_t representation. *)
From Coq Require Import Arith NArith ZArith List Bool Lia Eqdep_dec Field.
From Verif Require Import Prelude Clmul FieldModel FieldProofs FieldInv PolyModel PolyProofs.
Import ListNotations.
Local Open Scope N_scope.

Definition rmap {A B} (h : A -> B) (x : res A) : res B :=
  match x with Ok a => Ok (h a) | Throw e => Throw e | UB r => UB r | OutOfFuel => OutOfFuel end.

Lemma rmap_bind {A B C D} (h : A -> B) (g : C -> D) (x : res A) (f : A -> res C) (f' : B -> res D) :
  (forall a, f' (h a) = rmap g (f a)) -> bind (rmap h x) f' = rmap g (bind x f).
Proof. intros H. destruct x; simpl; auto. Qed.

Lemma foldM_transfer {I S T} (h : S -> T) (f : S -> I -> res S) (g : T -> I -> res T) l s :
  (forall s i, g (h s) i = rmap h (f s i)) -> foldM g l (h s) = rmap h (foldM f l s).
Proof.
  intros H. revert s; induction l; intros s; simpl; auto.
  rewrite H. apply rmap_bind. auto.
Qed.
Lemma mapM_transfer {I A B} (h : A -> B) (f : I -> res A) (g : I -> res B) l :
  (forall i, g i = rmap h (f i)) -> mapM g l = rmap (map h) (mapM f l).
Proof.
  intros H. induction l; simpl; auto. rewrite H. apply rmap_bind. intros a'.
  rewrite IHl. apply rmap_bind. reflexivity.
Qed.

Lemma map_repeat {A B} (g : A -> B) x n : map g (repeat x n) = repeat (g x) n.
Proof. induction n; simpl; auto. f_equal; auto. Qed.

Section Transfer.
Context {F A : Type} (OF : fops F) (OA : fops A) (h : F -> A).
Context (H0 : h (f0 OF) = f0 OA) (H1 : h (f1 OF) = f1 OA).
Context (Hadd : forall x y, h (fadd OF x y) = fadd OA (h x) (h y)).
Context (Hmul : forall x y, h (fmul OF x y) = fmul OA (h x) (h y)).
Context (Hinv : forall x, finv OA (h x) = rmap h (finv OF x)).

Lemma get_map {X Y} (g : X -> Y) l i : get (map g l) i = rmap g (get l i).
Proof. unfold get. rewrite nth_error_map. destruct (nth_error l i); reflexivity. Qed.
Lemma upd_map {X Y} (g : X -> Y) l i x : upd (map g l) i (g x) = map g (upd l i x).
Proof. revert i; induction l; destruct i; simpl; auto. f_equal. auto. Qed.
Lemma set_map {X Y} (g : X -> Y) l i x : set (map g l) i (g x) = rmap (map g) (set l i x).
Proof. unfold set. rewrite map_length. destruct (i <? length l)%nat; simpl; auto. f_equal. apply upd_map. Qed.

Ltac tstep :=
  first [ rewrite get_map; apply rmap_bind; intros ?; cbv beta
        | rewrite set_map; apply rmap_bind; intros ?; cbv beta ].

Lemma eval_transfer p x : eval OA (map h p) (h x) = h (eval OF p x).
Proof.
  unfold eval. rewrite <- map_rev, <- H0. generalize (f0 OF) (rev p). intros a l. revert a.
  induction l; intros b; simpl; auto. rewrite <- Hmul, <- Hadd. apply IHl.
Qed.
Lemma zip_add_transfer a b : zip_add OA (map h a) (map h b) = map h (zip_add OF a b).
Proof. revert b; induction a; destruct b; simpl; auto. rewrite Hadd, IHa. reflexivity. Qed.
Lemma vadd_transfer a b : vadd OA (map h a) (map h b) = rmap (map h) (vadd OF a b).
Proof.
  unfold vadd. rewrite !map_length. destruct (negb _); simpl; auto. f_equal. apply zip_add_transfer.
Qed.
Lemma vscale_transfer a s : vscale OA (map h a) (h s) = map h (vscale OF a s).
Proof. unfold vscale. rewrite !map_map. apply map_ext. intros. symmetry. apply Hmul. Qed.

Lemma roots_inner_transfer k t p : roots_inner OA k (h t) (map h p) = rmap (map h) (roots_inner OF k t p).
Proof.
  unfold roots_inner. apply foldM_transfer. intros s i. tstep. tstep.
  rewrite <- Hmul, <- Hadd. apply set_map.
Qed.
Lemma build_transfer p : build_from_roots OA (map h p) = rmap (map h) (build_from_roots OF p).
Proof.
  unfold build_from_roots. rewrite map_length.
  rewrite <- H0. change (map h p ++ [h (f0 OF)]) with (map h p ++ map h [f0 OF]). rewrite <- map_app.
  rewrite (foldM_transfer (map h) (fun poly k =>
      do tmp <- get poly k;
      do pm <- get poly (k - 1)%nat;
      do poly <- set poly k (fadd OF tmp pm);
      do poly <- roots_inner OF k tmp poly;
      do p0 <- get poly 0%nat;
      set poly 0%nat (fmul OF p0 tmp))).
  - apply rmap_bind. intros a. rewrite <- H1. apply set_map.
  - intros s i. tstep. tstep. rewrite <- Hadd. tstep.
    rewrite roots_inner_transfer. apply rmap_bind. intros. tstep. rewrite <- Hmul. apply set_map.
Qed.
Lemma vmul_transfer p r : vmul OA (map h p) (map h r) = rmap (map h) (vmul OF p r).
Proof.
  unfold vmul. rewrite !map_length. destruct (_ && _); auto.
  rewrite <- H0, <- map_repeat. apply foldM_transfer. intros s i. tstep.
  apply foldM_transfer. intros s' j. tstep. tstep. rewrite <- Hmul, <- Hadd. apply set_map.
Qed.
Lemma precompute_transfer xs :
  precompute_lagrange_polynomials OA (map h xs) = rmap (map (map h)) (precompute_lagrange_polynomials OF xs).
Proof.
  unfold precompute_lagrange_polynomials. rewrite map_length. apply mapM_transfer. intros k.
  set (hp := fun st : F * list F => (h (fst st), map h (snd st))).
  change (f1 OA, @nil A) with (f1 OA, map h []). rewrite <- H1.
  change (h (f1 OF), map h []) with (hp (f1 OF, [])).
  rewrite (foldM_transfer hp (fun st j =>
          let '(denominator, x_except_k) := st in
          if negb (k =? j)%nat then
            do xk <- get xs k;
            do xj <- get xs j;
            Ok (fmul OF denominator (fadd OF xk xj), x_except_k ++ [xj])
          else Ok st)).
  - apply rmap_bind. intros [d e]. cbn. rewrite build_transfer. apply rmap_bind. intros num.
    rewrite Hinv. apply rmap_bind. intros di. cbn. f_equal. apply vscale_transfer.
  - intros [d e] j. cbn. destruct (negb _); auto. tstep. tstep. cbn. unfold hp. cbn.
    rewrite <- Hadd, <- Hmul, map_app. reflexivity.
Qed.
Lemma interpolate_transfer pre ys :
  interpolate_with_precomputation OA (map (map h) pre) (map h ys)
  = rmap (map h) (interpolate_with_precomputation OF pre ys).
Proof.
  unfold interpolate_with_precomputation. rewrite !map_length. destruct (_ || _); auto.
  tstep. rewrite map_length, <- H0, <- map_repeat. apply foldM_transfer. intros s k. tstep. tstep.
  rewrite vscale_transfer. apply vadd_transfer.
Qed.
End Transfer.

(** ** The concrete field type *)
Section Concrete.
Context (n : nat) (c : fctx) (linv : list N) (OK : field_ok n c linv).
Notation q := (2 ^ N.of_nat n).

Definition fel : Type := { x : N | (x <? q) = true }.
Definition val (x : fel) : N := proj1_sig x.
Definition mk (x : N) (H : x < q) : fel := exist _ x (proj2 (N.ltb_lt x q) H).
Lemma val_lt (x : fel) : val x < q.
Proof. apply N.ltb_lt. exact (proj2_sig x). Qed.
Lemma val_mk x H : val (mk x H) = x.
Proof. reflexivity. Qed.
Lemma val_inj (x y : fel) : val x = val y -> x = y.
Proof.
  destruct x as [x Hx], y as [y Hy]. simpl. intros E. subst. f_equal.
  apply UIP_dec. decide equality.
Qed.

Definition s_add (x y : fel) : fel := mk (N.lxor (val x) (val y)) (add_lt n _ _ (val_lt x) (val_lt y)).
Definition s_mul (x y : fel) : fel := mk (gmul c (val x) (val y)) (mul_lt n c linv OK _ _).
Definition s_0 : fel := mk 0 (zero_lt_q n c linv OK).
Definition s_1 : fel := mk 1 (one_lt_q n c linv OK).
(** the value computed by GF2E::inverse *)
Definition inv_val (x : N) : N := match ginverse c x with Ok b => b | _ => 0 end.
Lemma inv_val_lt x : x < q -> inv_val x < q.
Proof.
  intros H. unfold inv_val. destruct (N.eq_dec x 0) as [->|Hx].
  - unfold ginverse. rewrite mod_inverse_zero. apply (zero_lt_q n c linv OK).
  - unfold ginverse. destruct (mod_inverse_ok n c linv OK 64 x H Hx) as [b [E [Hb _]]]. rewrite E. auto.
Qed.
Definition s_inv (x : fel) : fel := mk (inv_val (val x)) (inv_val_lt _ (val_lt x)).
Definition s_ops : fops fel := mkFops s_0 s_1 s_add s_mul (fun x => Ok (s_inv x)).

Lemma ginverse_inv_val x : x < q -> ginverse c x = Ok (inv_val x).
Proof.
  intros H. unfold inv_val. destruct (N.eq_dec x 0) as [->|Hx].
  - unfold ginverse. rewrite mod_inverse_zero. reflexivity.
  - unfold ginverse. destruct (mod_inverse_ok n c linv OK 64 x H Hx) as [b [E _]]. rewrite E. reflexivity.
Qed.
Lemma inv_val_mul x : x < q -> x <> 0 -> gmul c x (inv_val x) = 1.
Proof.
  intros H Hx. unfold inv_val, ginverse.
  destruct (mod_inverse_ok n c linv OK 64 x H Hx) as [b [E [_ Hm]]]. rewrite E. exact Hm.
Qed.

Lemma s_field : field_theory s_0 s_1 s_add s_mul (add_sub s_ops) (@id_opp fel) (fdiv s_ops s_inv) s_inv (@eq fel).
Proof.
  constructor.
  - constructor; intros; apply val_inj; cbn.
    + reflexivity.
    + apply N.lxor_comm.
    + symmetry. apply N.lxor_assoc.
    + apply (mul_1_l n c linv OK). apply val_lt.
    + apply mul_comm.
    + symmetry. apply (mul_assoc n c linv OK); apply val_lt.
    + apply (mul_add_l n c linv OK); apply val_lt.
    + reflexivity.
    + apply N.lxor_nilpotent.
  - intros E. apply (f_equal val) in E. discriminate E.
  - intros. reflexivity.
  - intros p Hp. apply val_inj. cbn. rewrite mul_comm. apply inv_val_mul.
    + apply val_lt.
    + intros E. apply Hp. apply val_inj. exact E.
Qed.

Lemma s_inv_spec x : x <> s_0 -> finv s_ops x = Ok (s_inv x).
Proof. reflexivity. Qed.

(** lists of field elements correspond to lists of in-range words *)
Definition in_range (l : list N) : Prop := Forall (fun x => x < q) l.
Definition fel_of (x : N) : fel := mk (x mod q) (N.mod_lt x q (N.pow_nonzero 2 _ ltac:(discriminate))).
Lemma val_fel_of x : x < q -> val (fel_of x) = x.
Proof. intros H. cbn. apply N.mod_small; auto. Qed.
Lemma map_val_of l : in_range l -> map val (map fel_of l) = l.
Proof.
  induction l; intros H; cbn [map]; auto. inversion H; subst. rewrite val_fel_of, IHl; auto.
Qed.
Lemma in_range_map l : in_range (map val l).
Proof. apply Forall_forall. intros x Hx. apply in_map_iff in Hx. destruct Hx as [y [<- _]]. apply val_lt. Qed.
Lemma NoDup_fel l : in_range l -> NoDup l -> NoDup (map fel_of l).
Proof.
  intros R H. apply (NoDup_map_inv val). rewrite map_val_of; auto.
Qed.

(** transfer instances *)
Lemma v_inv x : finv (gops c) (val x) = rmap val (finv s_ops x).
Proof. change (ginverse c (val x) = Ok (inv_val (val x))). apply ginverse_inv_val. apply val_lt. Qed.
Lemma v_eval p x : eval (gops c) (map val p) (val x) = val (eval s_ops p x).
Proof. apply eval_transfer; reflexivity. Qed.
Lemma v_precompute xs :
  precompute_lagrange_polynomials (gops c) (map val xs) = rmap (map (map val)) (precompute_lagrange_polynomials s_ops xs).
Proof. apply precompute_transfer; try reflexivity. apply v_inv. Qed.
Lemma v_interpolate pre ys :
  interpolate_with_precomputation (gops c) (map (map val) pre) (map val ys)
  = rmap (map val) (interpolate_with_precomputation s_ops pre ys).
Proof. apply interpolate_transfer; reflexivity. Qed.
Lemma v_vmul p r : vmul (gops c) (map val p) (map val r) = rmap (map val) (vmul s_ops p r).
Proof. apply vmul_transfer; reflexivity. Qed.
Lemma v_vadd p r : vadd (gops c) (map val p) (map val r) = rmap (map val) (vadd s_ops p r).
Proof. apply vadd_transfer; reflexivity. Qed.
Lemma v_vscale p s : vscale (gops c) (map val p) (val s) = map val (vscale s_ops p s).
Proof. apply vscale_transfer; reflexivity. Qed.
Lemma v_build p : build_from_roots (gops c) (map val p) = rmap (map val) (build_from_roots s_ops p).
Proof. apply build_transfer; reflexivity. Qed.
End Concrete.
