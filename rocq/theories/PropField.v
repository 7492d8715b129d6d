(** Property theorems about the field arithmetic (C11 - C19).
    [init_extension_field lambda = Ok c] says: the process has initialised GF2E for this lambda.
    Vocabulary of the statements: FieldSpec.v (no model code). *)
From Coq Require Import Arith NArith ZArith List Bool Lia.
From Verif Require Import Prelude FieldModel PolyModel FieldSpec Instances Gf8 FieldApi FieldExtra.
Import ListNotations.
Local Open Scope N_scope.

(** C11: the elements below 2^(8 lambda) with operator+ and operator* form a commutative field. *)
Theorem C11_field_laws : forall lambda c, init_extension_field lambda = Ok c ->
  forall a b d, elt lambda a -> elt lambda b -> elt lambda d ->
  elt lambda (gadd a b) /\ elt lambda (gmul c a b) /\
  gadd a b = gadd b a /\ gadd (gadd a b) d = gadd a (gadd b d) /\ gadd a 0 = a /\ gadd a a = 0 /\
  gmul c a b = gmul c b a /\ gmul c (gmul c a b) d = gmul c a (gmul c b d) /\
  gmul c 1 a = a /\ gmul c 0 a = 0 /\
  gmul c (gadd a b) d = gadd (gmul c a d) (gmul c b d) /\
  (gmul c a b = 0 -> a = 0 \/ b = 0) /\
  (a <> 0 -> exists i, elt lambda i /\ gmul c a i = 1).
Proof. exact api_laws. Qed.
Print Assumptions C11_field_laws.
Theorem C11_supported_lambdas : forall lambda,
  (exists c, init_extension_field lambda = Ok c) <-> (lambda = 2 \/ lambda = 4 \/ lambda = 5 \/ lambda = 6)%nat.
Proof. exact init_ok_iff. Qed.
Print Assumptions C11_supported_lambdas.
(** C12: operator* is the remainder of the polynomial product modulo the documented polynomial, and the
    reduction function maps every value below 2^(16 lambda) (every xor-sum of products) to its remainder. *)
Theorem C12_mul_is_remainder : forall lambda c, init_extension_field lambda = Ok c ->
  forall a b p, elt lambda a -> elt lambda b -> is_product a b p ->
  is_remainder (modulus_of lambda) p (gmul c a b).
Proof. exact api_mul_rem. Qed.
Print Assumptions C12_mul_is_remainder.
Theorem C12_reduce_is_the_remainder : forall lambda c, init_extension_field lambda = Ok c ->
  forall x, x < 2 ^ (16 * N.of_nat lambda) -> forall r,
  is_remainder (modulus_of lambda) x r <-> fc_reduce c x = r.
Proof. exact api_reduce_unique. Qed.
Print Assumptions C12_reduce_is_the_remainder.
(** the Barrett variant (not called by the library) computes the same function *)
Theorem C12_barret_variant : forall x, x < 2 ^ 64 -> reduce_GF2_32_barret x = reduce_GF2_32 x.
Proof. exact barret_ok. Qed.
Print Assumptions C12_barret_variant.

(** C13: inverse() *)
Theorem C13_inverse : forall lambda c, init_extension_field lambda = Ok c ->
  forall (clz_of_zero : Z) a, elt lambda a ->
  exists b, mod_inverse clz_of_zero a (fc_modulus c) = Ok b /\ ginverse c a = Ok b /\ elt lambda b /\
    (a = 0 -> b = 0) /\ (a <> 0 -> gmul c a b = 1).
Proof. exact api_inverse. Qed.
Print Assumptions C13_inverse.

(** C14: the lift of bytes *)
Theorem C14_lift_homomorphism : forall lambda c, init_extension_field lambda = Ok c ->
  lift c 0 = 0 /\ lift c 1 = 1 /\
  forall a b, a < 256 -> b < 256 ->
    elt lambda (lift c a) /\
    lift c (N.lxor a b) = gadd (lift c a) (lift c b) /\
    (forall p, aes_product a b p -> lift c p = gmul c (lift c a) (lift c b)) /\
    (lift c a = lift c b -> a = b).
Proof. exact api_lift_hom. Qed.
Print Assumptions C14_lift_homomorphism.

(** C15: byte encoding *)
Theorem C15_byte_encoding : forall lambda c, init_extension_field lambda = Ok c ->
  (forall a, elt lambda a -> length (to_bytes lambda a) = lambda /\ is_bytes (to_bytes lambda a) /\
      from_bytes (to_bytes lambda a) = a) /\
  (forall l, is_bytes l -> length l = lambda -> elt lambda (from_bytes l) /\ to_bytes lambda (from_bytes l) = l).
Proof. exact api_bytes. Qed.
Print Assumptions C15_byte_encoding.

(** C16: dot_product *)
Theorem C16_dot_product : forall lambda c, init_extension_field lambda = Ok c -> forall xs ys,
  (length xs = length ys -> Forall (elt lambda) xs -> Forall (elt lambda) ys ->
   dot_product c xs ys = Ok (xsum (map (fun p => gmul c (fst p) (snd p)) (combine xs ys)))) /\
  (length xs <> length ys -> dot_product c xs ys = Throw ESizeMismatch).
Proof. exact api_dot. Qed.
Print Assumptions C16_dot_product.

(** C17: interpolation, roots, evaluation, product *)
Theorem C17_interpolation : forall lambda c, init_extension_field lambda = Ok c -> forall xs ys,
  NoDup xs -> (0 < length xs)%nat -> length ys = length xs ->
  Forall (elt lambda) xs -> Forall (elt lambda) ys ->
  exists pre p,
    precompute_lagrange_polynomials (gops c) xs = Ok pre /\
    interpolate_with_precomputation (gops c) pre ys = Ok p /\
    length p = length xs /\ Forall (elt lambda) p /\
    (forall k, (k < length xs)%nat -> horner gadd (gmul c) p (nth k xs 0) = nth k ys 0) /\
    (forall p', length p' = length xs -> Forall (elt lambda) p' ->
       (forall k, (k < length xs)%nat -> horner gadd (gmul c) p' (nth k xs 0) = nth k ys 0) -> p' = p).
Proof. exact api_interpolate. Qed.
Print Assumptions C17_interpolation.
Theorem C17_interpolation_size_check : forall c pre ys,
  length pre <> length ys \/ length ys = 0%nat ->
  interpolate_with_precomputation (gops c) pre ys = Throw EInterpSizes.
Proof. exact interp_throws. Qed.
Print Assumptions C17_interpolation_size_check.
Theorem C17_build_from_roots : forall lambda c, init_extension_field lambda = Ok c -> forall roots,
  Forall (elt lambda) roots ->
  exists p, build_from_roots (gops c) roots = Ok p /\ length p = S (length roots) /\
    last p 0 = 1 /\ Forall (elt lambda) p /\
    forall x, elt lambda x -> (horner gadd (gmul c) p x = 0 <-> In x roots).
Proof. exact api_build. Qed.
Print Assumptions C17_build_from_roots.
Theorem C17_eval : forall lambda c, init_extension_field lambda = Ok c -> forall p x,
  Forall (elt lambda) p -> elt lambda x -> eval (gops c) p x = horner gadd (gmul c) p x.
Proof. exact api_eval. Qed.
Print Assumptions C17_eval.
Theorem C17_polynomial_product : forall lambda c, init_extension_field lambda = Ok c -> forall p r,
  Forall (elt lambda) p -> Forall (elt lambda) r -> (0 < length p)%nat -> (0 < length r)%nat ->
  exists s, vmul (gops c) p r = Ok s /\ length s = (length p + length r - 1)%nat /\ Forall (elt lambda) s /\
    forall x, elt lambda x ->
      horner gadd (gmul c) s x = gmul c (horner gadd (gmul c) p x) (horner gadd (gmul c) r x).
Proof. exact api_vmul. Qed.
Print Assumptions C17_polynomial_product.

(** C18: for every parameter set, the interpolation points are distinct, nonzero, and every difference is invertible. *)
Theorem C18_points_distinct : forall I c, builtin I -> init_extension_field (lambda I) = Ok c ->
  forall k, (k <= 2 * m2 I + 1)%nat ->
  let xs := get_first_n_field_elements c k in
  NoDup xs /\ length xs = k /\ Forall (fun x => x <> 0 /\ elt (lambda I) x) xs /\
  forall a b, In a xs -> In b xs -> a <> b ->
    exists i, ginverse c (gadd a b) = Ok i /\ gmul c (gadd a b) i = 1.
Proof. exact builtin_points. Qed.
Print Assumptions C18_points_distinct.
Theorem C18_every_parameter_set_has_a_field : forall I, builtin I -> exists c, init_extension_field (lambda I) = Ok c.
Proof. exact builtin_field. Qed.
Print Assumptions C18_every_parameter_set_has_a_field.
(** for every supported field, not only for the sizes in the table *)
Theorem C18_points_distinct_any_count : forall lambda c, init_extension_field lambda = Ok c -> forall k,
  N.of_nat k <= 21845 ->
  NoDup (get_first_n_field_elements c k) /\ length (get_first_n_field_elements c k) = k /\
  Forall (fun x => x <> 0 /\ elt lambda x) (get_first_n_field_elements c k).
Proof. exact api_points. Qed.
Print Assumptions C18_points_distinct_any_count.

(** C19: the S-box inversion of aes.cpp *)
Theorem C19_sbox_inversion : forall a, a < 256 ->
  inverse a < 256 /\ (a = 0 -> inverse a = 0) /\ (a <> 0 -> aes_product a (inverse a) 1) /\
  inverse (inverse a) = a.
Proof. exact inverse_sbox. Qed.
Print Assumptions C19_sbox_inversion.
Theorem C19_multiply : forall a b, a < 256 -> b < 256 -> aes_product a b (multiply a b).
Proof. exact multiply_is_product. Qed.
Print Assumptions C19_multiply.

(** ** Concrete cases meeting the hypotheses *)
Example C11_C13_case :
  let a := 0x123456789abc in let b := 0xfedcba987654 in
  init_extension_field 6 = Ok ctx48 /\ elt 6 a /\ elt 6 b /\
  match ginverse ctx48 a with Ok i => gmul ctx48 a i = 1 /\ i <> 0 /\ i <> 1 | _ => False end.
Proof. vm_compute. repeat split; discriminate. Qed.
Example C12_case : is_product 3 5 15 /\ is_remainder (modulus_of 2) (2 ^ 16) 0x2b.
Proof.
  split.
  - apply (clmul_is_product 3 5).
  - apply is_remainder_iff. split; [reflexivity|]. exists 1. reflexivity.
Qed.
Example C14_case : aes_product 0x57 0x83 0xc1 /\ lift ctx32 0xc1 <> 0xc1 /\
  gmul ctx32 (lift ctx32 0x57) (lift ctx32 0x83) = lift ctx32 0xc1.
Proof.
  split; [apply aes_product_iff; reflexivity|]. vm_compute. split; [discriminate|reflexivity].
Qed.
Example C15_case : to_bytes 5 0x0102030405 = [5; 4; 3; 2; 1] /\ elt 5 0x0102030405.
Proof. vm_compute. auto. Qed.
Example C16_case : dot_product ctx16 [2; 3] [4; 5] = Ok (N.lxor 8 15) /\ dot_product ctx16 [2] [] = Throw ESizeMismatch.
Proof. vm_compute. auto. Qed.
Example C17_case :
  let xs := get_first_n_field_elements ctx32 3 in let ys := [7; 9; 0xffffffff] in
  NoDup xs /\ Forall (elt 4) xs /\ Forall (elt 4) ys /\
  (do pre <- precompute_lagrange_polynomials (gops ctx32) xs;
   do p <- interpolate_with_precomputation (gops ctx32) pre ys;
   Ok (map (eval (gops ctx32) p) xs)) = Ok ys.
Proof.
  split; [|split; [|split]].
  - apply (C18_points_distinct_any_count 4 ctx32 eq_refl 3). vm_compute. discriminate.
  - repeat constructor.
  - repeat constructor.
  - vm_compute. reflexivity.
Qed.
Example C18_case : exists I, builtin I /\ lambda I = 4%nat /\ m2 I = 26%nat.
Proof. eexists. split; [exists 11%Z; reflexivity|]. split; reflexivity. Qed.
Example C19_case : inverse 0x53 = 0xca /\ multiply 0x57 0x83 = 0xc1.
Proof. vm_compute. auto. Qed.
