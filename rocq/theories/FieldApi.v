(** The field facts restated for whatever init_extension_field returns. *)
From Coq Require Import Arith NArith ZArith List Bool Lia.
From Verif Require Import Prelude Clmul FieldModel FieldProofs FieldInv Gf8 PolyModel PolyProofs FieldSig Points FieldSpec Instances.
Import ListNotations.
Local Open Scope N_scope.

Lemma conv_lxor_l a b d k i : conv (N.lxor a b) d k i = xorb (conv a d k i) (conv b d k i).
Proof.
  induction i; cbn [conv]; [|rewrite IHi]; rewrite N.lxor_spec;
    repeat match goal with |- context [N.testbit ?x ?y] => destruct (N.testbit x y) end;
    repeat match goal with |- context [conv ?x ?y ?z ?w] => destruct (conv x y z w) end; reflexivity.
Qed.
Lemma conv_0_l d k i : conv 0 d k i = false.
Proof. induction i; cbn [conv]; [|rewrite IHi]; rewrite N.bits_0; reflexivity. Qed.
Lemma conv_pow2 i b k j : (j <= k)%nat ->
  conv (2 ^ N.of_nat i) b k j = if (i <=? j)%nat then N.testbit b (N.of_nat (k - i)) else false.
Proof.
  induction j; intros Hj; cbn [conv].
  - rewrite N.pow2_bits_eqb. destruct i; cbn; [apply xorb_false_r|reflexivity].
  - rewrite IHj by lia. rewrite N.pow2_bits_eqb.
    destruct (N.eqb_spec (N.of_nat i) (N.of_nat (S j))) as [E|E].
    + assert (i = S j) by lia. subst. rewrite Nat.leb_refl.
      replace (S j <=? j)%nat with false by (symmetry; apply Nat.leb_gt; lia). apply xorb_false_r.
    + destruct (Nat.leb_spec i j), (Nat.leb_spec i (S j)); try lia; cbn; auto; destruct (N.testbit b (N.of_nat (k - i))); reflexivity.
Qed.

Lemma clmul_is_product a b : is_product a b (clmul a b).
Proof.
  assert (Ha : a < 2 ^ N.of_nat (S (N.to_nat (N.log2 a)))).
  { rewrite Nat2N.inj_succ, N2Nat.id. destruct (N.eq_dec a 0) as [->|]; [reflexivity|]. apply N.log2_spec. lia. }
  revert Ha. generalize (S (N.to_nat (N.log2 a))). intros n Ha. revert a Ha.
  apply (closed_basis (fun a => is_product a b (clmul a b)) n).
  - intros k. rewrite clmul_0_l, N.bits_0, conv_0_l. reflexivity.
  - intros x y Hx Hy k. rewrite clmul_lxor_l, N.lxor_spec, conv_lxor_l, Hx, Hy. reflexivity.
  - intros i _ k. rewrite clmul_pow2_l, conv_pow2 by lia.
    destruct (Nat.leb_spec i k).
    + rewrite N.shiftl_spec_high' by lia. f_equal. lia.
    + apply N.shiftl_spec_low. lia.
Qed.
Lemma product_unique a b p p' : is_product a b p -> is_product a b p' -> p = p'.
Proof.
  intros H H'. apply N.bits_inj. intros k. rewrite <- (N2Nat.id k), H, H'. reflexivity.
Qed.
Lemma product_clmul a b p : is_product a b p -> p = clmul a b.
Proof. intros H. apply (product_unique a b); auto. apply clmul_is_product. Qed.

Lemma is_remainder_iff m x r : is_remainder m x r <-> r < 2 ^ N.log2 m /\ cong m x r.
Proof.
  unfold is_remainder, cong. split; intros [H [q E]]; split; auto; exists q.
  - apply product_clmul; auto.
  - rewrite E. apply clmul_is_product.
Qed.
Lemma remainder_unique m x r r' : m <> 0 -> is_remainder m x r -> is_remainder m x r' -> r = r'.
Proof.
  intros Hm H H'. apply is_remainder_iff in H, H'. destruct H, H'.
  apply (cong_unique m (N.log2 m)); auto.
  eapply cong_trans; [apply cong_sym|]; eauto.
Qed.

Definition linv_of (lambda : nat) : list N :=
  match lambda with 2%nat => linv16 | 4%nat => linv32 | 5%nat => linv40 | _ => linv48 end.

Section Api.
Context (lambda : nat) (c : fctx) (HI : init_extension_field lambda = Ok c).

Lemma api_cases : (lambda = 2%nat /\ c = ctx16) \/ (lambda = 4%nat /\ c = ctx32) \/
  (lambda = 5%nat /\ c = ctx40) \/ (lambda = 6%nat /\ c = ctx48).
Proof.
  revert HI. destruct lambda as [|[|[|[|[|[|[|l]]]]]]]; cbn; intros H; inversion H; tauto.
Qed.
Lemma api_ok : field_ok (8 * lambda) c (linv_of lambda).
Proof.
  destruct api_cases as [[-> ->]|[[-> ->]|[[-> ->]|[-> ->]]]].
  - apply field_ok_16. - apply field_ok_32. - apply field_ok_40. - apply field_ok_48.
Qed.
Lemma api_lift : lift_ok c = true.
Proof.
  destruct api_cases as [[-> ->]|[[-> ->]|[[-> ->]|[-> ->]]]].
  - apply lift_ok_16. - apply lift_ok_32. - apply lift_ok_40. - apply lift_ok_48.
Qed.
Lemma api_size : fc_byte_size c = lambda.
Proof. destruct api_cases as [[-> ->]|[[-> ->]|[[-> ->]|[-> ->]]]]; reflexivity. Qed.
Lemma api_modulus : fc_modulus c = modulus_of lambda.
Proof. destruct api_cases as [[-> ->]|[[-> ->]|[[-> ->]|[-> ->]]]]; reflexivity. Qed.
Lemma elt_iff x : elt lambda x <-> x < 2 ^ N.of_nat (8 * lambda).
Proof. unfold elt. replace (8 * N.of_nat lambda) with (N.of_nat (8 * lambda)) by lia. tauto. Qed.
Lemma log2_modulus : N.log2 (modulus_of lambda) = 8 * N.of_nat lambda.
Proof. rewrite <- api_modulus. rewrite (fo_log2 _ _ _ api_ok). lia. Qed.
Lemma modulus_neq0 : modulus_of lambda <> 0.
Proof. rewrite <- api_modulus. apply (m_neq0 _ _ _ api_ok). Qed.

Lemma api_laws : forall a b d, elt lambda a -> elt lambda b -> elt lambda d ->
  elt lambda (gadd a b) /\ elt lambda (gmul c a b) /\
  gadd a b = gadd b a /\ gadd (gadd a b) d = gadd a (gadd b d) /\ gadd a 0 = a /\ gadd a a = 0 /\
  gmul c a b = gmul c b a /\ gmul c (gmul c a b) d = gmul c a (gmul c b d) /\
  gmul c 1 a = a /\ gmul c 0 a = 0 /\
  gmul c (gadd a b) d = gadd (gmul c a d) (gmul c b d) /\
  (gmul c a b = 0 -> a = 0 \/ b = 0) /\
  (a <> 0 -> exists i, elt lambda i /\ gmul c a i = 1).
Proof.
  intros a b d Ha Hb Hd. rewrite elt_iff in Ha, Hb, Hd.
  split; [apply elt_iff, add_lt; auto|]. split; [apply elt_iff, (mul_lt _ _ _ api_ok)|].
  unfold gadd.
  split; [apply N.lxor_comm|]. split; [apply N.lxor_assoc|]. split; [apply N.lxor_0_r|].
  split; [apply N.lxor_nilpotent|]. split; [apply mul_comm|].
  split; [apply (mul_assoc _ _ _ api_ok); auto|]. split; [apply (mul_1_l _ _ _ api_ok); auto|].
  split; [apply (mul_0_l _ _ _ api_ok)|]. split; [apply (mul_add_l _ _ _ api_ok); auto|].
  split.
  - intros E. destruct (N.eq_dec a 0) as [|Hn]; auto. right.
    destruct (exists_inverse _ _ _ api_ok a Ha Hn) as [i [Hi Ei]].
    rewrite <- (mul_1_l _ _ _ api_ok b Hb), <- Ei, (mul_comm c a i), (mul_assoc _ _ _ api_ok) by auto.
    rewrite E. apply (mul_0_r _ _ _ api_ok).
  - intros Hn. destruct (exists_inverse _ _ _ api_ok a Ha Hn) as [i [Hi Ei]].
    exists i. split; auto. apply elt_iff; auto.
Qed.

Lemma api_reduce_elt x : x < 2 ^ (16 * N.of_nat lambda) ->
  is_remainder (modulus_of lambda) x (fc_reduce c x).
Proof.
  intros Hx. apply is_remainder_iff. rewrite log2_modulus. split.
  - apply elt_iff. apply (fo_lt _ _ _ api_ok).
  - rewrite <- api_modulus. apply (red_cong _ _ _ api_ok).
    replace (N.of_nat (2 * (8 * lambda))) with (16 * N.of_nat lambda) by lia. auto.
Qed.
Lemma api_mul_rem a b p : elt lambda a -> elt lambda b -> is_product a b p ->
  is_remainder (modulus_of lambda) p (gmul c a b).
Proof.
  intros Ha Hb Hp. apply product_clmul in Hp. subst p. rewrite elt_iff in Ha, Hb.
  rewrite (mul_unfold _ _ _ api_ok) by auto. apply api_reduce_elt.
  replace (16 * N.of_nat lambda) with (N.of_nat (2 * (8 * lambda))) by lia.
  apply (clmul_lt2 _ _ _ api_ok); auto.
Qed.

Lemma api_inverse z0 a : elt lambda a ->
  exists b, mod_inverse z0 a (fc_modulus c) = Ok b /\ ginverse c a = Ok b /\ elt lambda b /\
    (a = 0 -> b = 0) /\ (a <> 0 -> gmul c a b = 1).
Proof.
  intros Ha. rewrite elt_iff in Ha. unfold ginverse.
  rewrite (mod_inverse_z0_irrelevant _ _ _ api_ok z0 64 a Ha).
  destruct (N.eq_dec a 0) as [->|Hn].
  - exists 0. rewrite mod_inverse_zero. repeat (split; auto).
    + apply elt_iff, (zero_lt_q _ _ _ api_ok). + tauto.
  - destruct (mod_inverse_ok _ _ _ api_ok 64 a Ha Hn) as [b [E [Hb Hm]]].
    exists b. rewrite E. repeat (split; auto). + apply elt_iff; auto. + tauto.
Qed.

Lemma aes_product_iff a b p : a < 256 -> b < 256 -> (aes_product a b p <-> p = gf8_mul a b).
Proof.
  intros Ha Hb. destruct (gf8_mul_spec a b Ha Hb) as [H1 H2]. split.
  - intros [d [Hd Hr]]. apply product_clmul in Hd. subst d.
    apply (remainder_unique rijndael_poly (clmul a b)); [discriminate|exact Hr|].
    apply is_remainder_iff. auto.
  - intros ->. exists (clmul a b). split; [apply clmul_is_product|].
    apply (proj2 (is_remainder_iff rijndael_poly (clmul a b) (gf8_mul a b))). split; auto.
Qed.

Lemma api_lift_hom :
  lift c 0 = 0 /\ lift c 1 = 1 /\
  forall a b, a < 256 -> b < 256 ->
    elt lambda (lift c a) /\
    lift c (N.lxor a b) = gadd (lift c a) (lift c b) /\
    (forall p, aes_product a b p -> lift c p = gmul c (lift c a) (lift c b)) /\
    (lift c a = lift c b -> a = b).
Proof.
  split; [apply (lift_0 _ _ _ api_ok api_lift)|]. split; [apply (lift_1 _ _ _ api_ok api_lift)|].
  intros a b Ha Hb. split; [apply elt_iff, (lift_lt _ _ _ api_ok api_lift); auto|].
  split; [apply (lift_add _ _ _ api_ok api_lift); auto|]. split.
  - intros p Hp. apply aes_product_iff in Hp; auto. subst p. apply (lift_mul _ _ _ api_ok api_lift); auto.
  - apply (lift_inj _ _ _ api_ok api_lift); auto.
Qed.

Lemma api_bytes :
  (forall a, elt lambda a -> length (to_bytes lambda a) = lambda /\ is_bytes (to_bytes lambda a) /\
      from_bytes (to_bytes lambda a) = a) /\
  (forall l, is_bytes l -> length l = lambda -> elt lambda (from_bytes l) /\ to_bytes lambda (from_bytes l) = l).
Proof.
  assert (Q : 2 ^ (8 * N.of_nat lambda) = 256 ^ N.of_nat lambda).
  { rewrite N.pow_mul_r. reflexivity. }
  split.
  - intros a Ha. split; [|split].
    + unfold to_bytes. generalize (w64 a). clear. induction lambda; simpl; auto.
    + unfold to_bytes. generalize (w64 a). clear. induction lambda; simpl; intros; constructor; [|apply IHn].
      unfold is_byte. apply N.mod_lt. discriminate.
    + pose proof (from_to_bytes _ _ _ api_ok a) as H. rewrite api_size in H. apply H. apply elt_iff; auto.
  - intros l Hb Hl. split.
    + unfold elt, from_bytes. rewrite Q. rewrite <- Hl. apply le_word_lt. auto.
    + pose proof (to_from_bytes _ _ _ api_ok l Hb) as H. rewrite api_size in H. apply H; auto.
Qed.

Lemma api_dot xs ys :
  (length xs = length ys -> Forall (elt lambda) xs -> Forall (elt lambda) ys ->
   dot_product c xs ys = Ok (xsum (map (fun p => gmul c (fst p) (snd p)) (combine xs ys)))) /\
  (length xs <> length ys -> dot_product c xs ys = Throw ESizeMismatch).
Proof.
  split.
  - intros HL _ _. rewrite (dot_product_ok _ _ _ api_ok) by auto. f_equal. clear.
    revert ys; induction xs; destruct ys; cbn [sum_products combine map xsum fold_right fst snd]; auto.
    f_equal. apply IHxs.
  - intros HL. unfold dot_product. apply Nat.eqb_neq in HL. rewrite HL. reflexivity.
Qed.

Lemma api_points k : N.of_nat k <= 21845 ->
  NoDup (get_first_n_field_elements c k) /\ length (get_first_n_field_elements c k) = k /\
  Forall (fun x => x <> 0 /\ elt lambda x) (get_first_n_field_elements c k).
Proof.
  intros Hk.
  assert (H : NoDup (get_first_n_field_elements c k) /\
    Forall (fun x => x <> 0 /\ x < 2 ^ N.of_nat (8 * lambda)) (get_first_n_field_elements c k)).
  { destruct api_cases as [[-> ->]|[[-> ->]|[[-> ->]|[-> ->]]]].
    - eapply first_elements_distinct; [apply field_ok_16|apply order16|exact Hk].
    - eapply first_elements_distinct; [apply field_ok_32|apply order32|]. unfold ord32. lia.
    - eapply first_elements_distinct; [apply field_ok_40|apply order40|]. unfold ord40. lia.
    - eapply first_elements_distinct; [apply field_ok_48|apply order48|]. unfold ord48. lia. }
  destruct H as [H1 H2]. split; auto. split.
  - rewrite (first_elements_eq _ _ _ api_ok), map_length, seq_length. reflexivity.
  - eapply Forall_impl; [|exact H2]. intros x [A B]. split; auto. apply elt_iff; auto.
Qed.

(** ** polynomials *)
Notation H0 := (horner gadd (gmul c)).
Notation sops := (s_ops (8 * lambda) c (linv_of lambda) api_ok).
Notation sinv := (s_inv (8 * lambda) c (linv_of lambda) api_ok).
Notation FT := (s_field (8 * lambda) c (linv_of lambda) api_ok).
Notation fe := (fel (8 * lambda)).
Notation fv := (val (8 * lambda)).

Lemma elts_range l : Forall (elt lambda) l -> in_range (8 * lambda) l.
Proof. intros H. eapply Forall_impl; [|exact H]. intros x. apply elt_iff. Qed.
Lemma elts_map l : Forall (elt lambda) l -> exists l' : list fe, l = map fv l'.
Proof.
  intros H. exists (map (fel_of (8 * lambda)) l). symmetry. apply map_val_of. apply elts_range; auto.
Qed.
Lemma elt_val x : elt lambda x -> exists x' : fe, x = fv x'.
Proof. intros H. exists (fel_of (8 * lambda) x). symmetry. apply val_fel_of. apply elt_iff; auto. Qed.
Lemma val_elt (x : fe) : elt lambda (fv x).
Proof. apply elt_iff, val_lt. Qed.
Lemma vals_elt (l : list fe) : Forall (elt lambda) (map fv l).
Proof. apply Forall_forall. intros x Hx. apply in_map_iff in Hx. destruct Hx as [y [<- _]]. apply val_elt. Qed.

Lemma horner_peval (p : list fe) (x : fe) : H0 (map fv p) (fv x) = fv (peval sops p x).
Proof. induction p; [reflexivity|]. cbn [map horner peval]. rewrite IHp. reflexivity. Qed.

Lemma api_eval p x : Forall (elt lambda) p -> elt lambda x -> eval (gops c) p x = H0 p x.
Proof.
  intros Hp Hx. destruct (elts_map p Hp) as [p' ->]. destruct (elt_val x Hx) as [x' ->].
  rewrite (v_eval _ _ _ api_ok), horner_peval. f_equal. apply (eval_peval sops sinv FT).
Qed.

Lemma nodup_vals (l : list fe) : NoDup (map fv l) -> NoDup l.
Proof. apply NoDup_map_inv. Qed.

Lemma api_interpolate xs ys : NoDup xs -> (0 < length xs)%nat -> length ys = length xs ->
  Forall (elt lambda) xs -> Forall (elt lambda) ys ->
  exists pre p,
    precompute_lagrange_polynomials (gops c) xs = Ok pre /\
    interpolate_with_precomputation (gops c) pre ys = Ok p /\
    length p = length xs /\ Forall (elt lambda) p /\
    (forall k, (k < length xs)%nat -> H0 p (nth k xs 0) = nth k ys 0) /\
    (forall p', length p' = length xs -> Forall (elt lambda) p' ->
       (forall k, (k < length xs)%nat -> H0 p' (nth k xs 0) = nth k ys 0) -> p' = p).
Proof.
  intros ND Hpos HL Hx Hy.
  destruct (elts_map xs Hx) as [xs' ->]. destruct (elts_map ys Hy) as [ys' ->].
  rewrite !map_length in *. apply nodup_vals in ND.
  destruct (interpolate_ok sops sinv FT (s_inv_spec _ _ _ api_ok) xs' ys' ND HL Hpos)
    as [pre [p [E1 [E2 [E3 [E4 _]]]]]].
  assert (Hn : forall (l : list fe) k, nth k (map fv l) 0 = fv (nth k l (f0 sops))).
  { intros l k. change 0 with (fv (f0 sops)). apply map_nth. }
  exists (map (map fv) pre), (map fv p).
  rewrite (v_precompute _ _ _ api_ok), E1.
  split; [reflexivity|]. rewrite (v_interpolate _ _ _ api_ok), E2. split; [reflexivity|].
  rewrite map_length. split; auto. split; [apply vals_elt|]. split.
  - intros k Hk. rewrite !Hn, horner_peval. f_equal. apply E4; auto.
  - intros p' Lp Rp Hev. destruct (elts_map p' Rp) as [p2 ->]. f_equal.
    rewrite map_length in Lp.
    apply (peval_unique sops sinv FT xs'); auto; try lia.
    intros x Hin. apply (In_nth _ _ (f0 sops)) in Hin. destruct Hin as [k [Hk <-]].
    rewrite E4 by auto. apply (val_inj (8 * lambda)). rewrite <- horner_peval, <- !Hn. apply Hev; auto.
Qed.

Lemma api_build roots : Forall (elt lambda) roots ->
  exists p, build_from_roots (gops c) roots = Ok p /\ length p = S (length roots) /\
    last p 0 = 1 /\ Forall (elt lambda) p /\
    forall x, elt lambda x -> (H0 p x = 0 <-> In x roots).
Proof.
  intros Hr. destruct (elts_map roots Hr) as [r' ->].
  destruct (build_from_roots_ok sops sinv FT r') as [low [E [L Hev]]].
  exists (map fv (low ++ [f1 sops])). rewrite (v_build _ _ _ api_ok), E. split; [reflexivity|].
  rewrite !map_length, app_length, L. cbn [length]. split; [lia|].
  split; [rewrite map_app; cbn [map]; rewrite last_last; reflexivity|]. split; [apply vals_elt|].
  intros x Hx. destruct (elt_val x Hx) as [x' ->]. rewrite horner_peval.
  change 0 with (fv (f0 sops)). split.
  - intros Ez. apply val_inj in Ez. rewrite Hev in Ez.
    destruct (in_dec (fun a b : fe => match N.eq_dec (fv a) (fv b) with
        | left e => left (val_inj _ _ _ e) | right n => right (fun e => n (f_equal fv e)) end) x' r') as [Hi|Hi].
    + apply in_map; auto.
    + exfalso. revert Ez. apply (prod_roots_neq0 sops sinv FT); auto.
  - intros Hi. f_equal. rewrite Hev. apply (prod_roots_zero sops sinv FT).
    apply in_map_iff in Hi. destruct Hi as [y [Ey Hy]]. apply val_inj in Ey. subst; auto.
Qed.

Lemma api_vmul p r : Forall (elt lambda) p -> Forall (elt lambda) r -> (0 < length p)%nat -> (0 < length r)%nat ->
  exists s, vmul (gops c) p r = Ok s /\ length s = (length p + length r - 1)%nat /\ Forall (elt lambda) s /\
    forall x, elt lambda x -> H0 s x = gmul c (H0 p x) (H0 r x).
Proof.
  intros Hp Hr Lp Lr. destruct (elts_map p Hp) as [p' ->]. destruct (elts_map r Hr) as [r' ->].
  rewrite !map_length in *.
  destruct (vmul_ok sops sinv FT p' r' Lp Lr) as [s [E [L Hev]]].
  exists (map fv s). rewrite (v_vmul _ _ _ api_ok), E. split; [reflexivity|].
  rewrite map_length. split; auto. split; [apply vals_elt|].
  intros x Hx. destruct (elt_val x Hx) as [x' ->]. rewrite !horner_peval, Hev. reflexivity.
Qed.
End Api.
