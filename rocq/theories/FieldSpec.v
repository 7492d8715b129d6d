(** Specification vocabulary for the field properties, independent of the model.
    A polynomial over GF(2) is the [N] whose bit i is the coefficient of x^i. *)
From Coq Require Import Arith NArith List Bool Lia.
Import ListNotations.
Local Open Scope N_scope.

(** coefficient of x^k of a product: xor over i <= k of a_i * b_(k-i) *)
Fixpoint conv (a b : N) (k i : nat) : bool :=
  xorb (N.testbit a (N.of_nat i) && N.testbit b (N.of_nat (k - i)))
       (match i with O => false | S i' => conv a b k i' end).
Definition is_product (a b p : N) : Prop := forall k, N.testbit p (N.of_nat k) = conv a b k k.

(** r is the remainder of x modulo m: x - r is a multiple of m, and deg r < deg m *)
Definition is_remainder (m x r : N) : Prop :=
  r < 2 ^ N.log2 m /\ exists q, is_product q m (N.lxor x r).

(** the moduli documented in field.cpp: x^16+x^5+x^3+x+1, x^32+x^7+x^3+x^2+1,
    x^40+x^5+x^4+x^3+1, x^48+x^5+x^3+x^2+1 *)
Definition modulus_of (lambda : nat) : N :=
  match lambda with
  | 2%nat => 2^16 + 2^5 + 2^3 + 2 + 1
  | 4%nat => 2^32 + 2^7 + 2^3 + 2^2 + 1
  | 5%nat => 2^40 + 2^5 + 2^4 + 2^3 + 1
  | _ => 2^48 + 2^5 + 2^3 + 2^2 + 1
  end.

(** the values of the field of size 2^(8*lambda) *)
Definition elt (lambda : nat) (x : N) : Prop := x < 2 ^ (8 * N.of_nat lambda).

(** the AES byte product, FIPS-197 section 4.2: remainder modulo x^8+x^4+x^3+x+1 *)
Definition aes_product (a b p : N) : Prop :=
  exists d, is_product a b d /\ is_remainder (2^8 + 2^4 + 2^3 + 2 + 1) d p.

(** xor-sum *)
Definition xsum (l : list N) : N := fold_right N.lxor 0 l.

(** value of a polynomial given by its coefficients (lowest first), with operations add and mul *)
Fixpoint horner (add mul : N -> N -> N) (p : list N) (x : N) : N :=
  match p with [] => 0 | a :: p' => add a (mul x (horner add mul p' x)) end.
