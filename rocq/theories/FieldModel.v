(** Model of the field arithmetic of /repo/field.cpp (the GF2E class and its helpers).

    A GF2E object is its [data] member, a uint64_t, represented as an [N].
    The three static members of GF2E and the file-static [lifting_lut] are the record [fctx];
    before the first successful call of [init_extension_field] the state is [None]
    (reduce = nullptr, byte_size = 0, modulus = 0, lifting_lut all zero: field.cpp:14,137-140). *)
From Coq Require Import Arith NArith ZArith List Bool Lia.
From Verif Require Import Prelude Clmul.
Import ListNotations.
Local Open Scope N_scope.

(** uint64_t truncation *)
Definition w64 (x : N) : N := N.land x (N.ones 64).
(** the two 64-bit halves of an __m128i (_mm_cvtsi128_si64 / _mm_extract_epi64) *)
Definition lo64 (x : N) : N := w64 x.
Definition hi64 (x : N) : N := w64 (N.shiftr x 64).
(** uint64_t shifts *)
Definition shl (x k : N) : N := w64 (N.shiftl x k).
Definition shr (x k : N) : N := N.shiftr x k.

(** clmul, field.cpp:31-33: _mm_clmulepi64_si128 with selector 0, the 128-bit carry-less
    product of the low 64-bit halves (the Intel definition of the instruction). *)
Definition clmul64 (a b : N) : N := clmul (w64 a) (w64 b).

(** reduce_GF2_16, field.cpp:35-46 *)
Definition reduce_GF2_16 (x : N) : N :=
  let R_lower := lo64 x in
  let R_upper := shr R_lower 16 in
  let T := R_upper in
  let R_upper := N.lxor (N.lxor (N.lxor R_upper (shr T 11)) (shr T 13)) (shr T 15) in
  let R_lower := N.lxor (N.lxor (N.lxor (N.lxor R_lower (shl R_upper 5)) (shl R_upper 3))
                        (shl R_upper 1)) (shl R_upper 0) in
  N.land R_lower 0xFFFF.

(** reduce_GF2_32_barret, field.cpp:49-58 (unused by the library) *)
Definition reduce_GF2_32_barret (x : N) : N :=
  let P := N.lor (N.lor (N.lor (N.lor (shl 1 32) (shl 1 7)) (shl 1 3)) (shl 1 2)) (shl 1 0) in
  let mu := P in
  let R := lo64 x in
  let T1 := lo64 (clmul64 (shr R 32) mu) in
  let T2 := lo64 (clmul64 (shr T1 32) P) in
  N.land (N.lxor R T2) 0xFFFFFFFF.

(** reduce_GF2_32, field.cpp:59-70 *)
Definition reduce_GF2_32 (x : N) : N :=
  let R_lower := lo64 x in
  let R_upper := shr R_lower 32 in
  let T := R_upper in
  let R_upper := N.lxor (N.lxor (N.lxor R_upper (shr T 25)) (shr T 29)) (shr T 30) in
  let R_lower := N.lxor (N.lxor (N.lxor (N.lxor R_lower (shl R_upper 7)) (shl R_upper 3))
                        (shl R_upper 2)) (shl R_upper 0) in
  N.land R_lower 0xFFFFFFFF.

(** reduce_GF2_40, field.cpp:72-85 *)
Definition reduce_GF2_40 (x : N) : N :=
  let R_lower := lo64 x in
  let R_upper := N.lor (shl (N.land (hi64 x) 0xFFFF) 24) (shr R_lower 40) in
  let T := R_upper in
  let R_upper := N.lxor (N.lxor (N.lxor R_upper (shr T 35)) (shr T 36)) (shr T 37) in
  let R_lower := N.lxor (N.lxor (N.lxor (N.lxor R_lower (shl R_upper 5)) (shl R_upper 4))
                        (shl R_upper 3)) (shl R_upper 0) in
  N.land R_lower 0xFFFFFFFFFF.

(** reduce_GF2_48, field.cpp:87-99 *)
Definition reduce_GF2_48 (x : N) : N :=
  let R_lower := lo64 x in
  let R_upper := N.lor (shl (N.land (hi64 x) 0xFFFFFFFF) 16) (shr R_lower 48) in
  let T := R_upper in
  let R_upper := N.lxor (N.lxor (N.lxor R_upper (shr T 43)) (shr T 45)) (shr T 46) in
  let R_lower := N.lxor (N.lxor (N.lxor (N.lxor R_lower (shl R_upper 5)) (shl R_upper 3))
                        (shl R_upper 2)) (shl R_upper 0) in
  N.land R_lower 0xFFFFFFFFFFFF.

(** __builtin_clzl.  The result for 0 is undefined in C; the model takes it as the argument [z0],
    and FieldProofs shows that it never influences a result. *)
Definition clzl (z0 : Z) (x : N) : Z :=
  if x =? 0 then z0 else (63 - Z.of_N (N.log2 x))%Z.

(** GF2_euclidean_div_quotient, field.cpp:101-110.  The while loop gets fuel. *)
Fixpoint div_loop (z0 : Z) (fuel : nat) (a b quotient : N) (diff : Z) : res N :=
  match fuel with
  | O => OutOfFuel
  | S fuel' =>
    if ((0 <=? diff)%Z && negb (a =? 0))%bool then
      let quotient := N.lor quotient (shl 1 (Z.to_N diff)) in
      let a := N.lxor a (shl b (Z.to_N diff)) in
      div_loop z0 fuel' a b quotient (clzl z0 b - clzl z0 a)%Z
    else Ok quotient
  end.
Definition GF2_euclidean_div_quotient (z0 : Z) (a b : N) : res N :=
  div_loop z0 66 a b 0 (clzl z0 b - clzl z0 a)%Z.

(** mod_inverse, field.cpp:112-130.  The while loop gets fuel. *)
Fixpoint inv_loop (z0 : Z) (fuel : nat) (t new_t r new_r : N) : res N :=
  match fuel with
  | O => OutOfFuel
  | S fuel' =>
    if new_r =? 0 then Ok t
    else
      do quotient <- GF2_euclidean_div_quotient z0 r new_r;
      inv_loop z0 fuel' new_t (N.lxor t (lo64 (clmul64 quotient new_t)))
                        new_r (N.lxor r (lo64 (clmul64 quotient new_r)))
  end.
Definition mod_inverse (z0 : Z) (a modulus : N) : res N :=
  inv_loop z0 66 0 1 modulus a.

(** The static state of the GF2E class (field.h:25-28) and lifting_lut (field.cpp:14). *)
Record fctx : Type := mkFctx {
  fc_byte_size : nat;          (* GF2E::byte_size *)
  fc_modulus : N;              (* GF2E::modulus *)
  fc_reduce : N -> N;          (* GF2E::reduce *)
  fc_lut : list N              (* lifting_lut *)
}.

(** GF2E::operator+, operator+=, operator-, operator-= , field.cpp:142-155 *)
Definition gadd (a b : N) : N := N.lxor a b.
(** GF2E::operator*, operator*=, field.cpp:156-162, once [reduce] is set *)
Definition gmul_with (red : N -> N) (a b : N) : N := red (clmul64 a b).
Definition gmul (c : fctx) (a b : N) : N := gmul_with (fc_reduce c) a b.
(** GF2E::inverse, field.cpp:170.  [res] because the loops are fuelled; FieldProofs shows Ok.
    64 stands for the undefined __builtin_clzl(0), which is proved irrelevant. *)
Definition ginverse (c : fctx) (a : N) : res N := mod_inverse 64 a (fc_modulus c).

(** init_lifting_lut, field.cpp:16-29.  The array is filled from the front: after handling [bit]
    exactly the first 2^(bit+1) entries are final; the model grows a list instead. *)
Fixpoint lut_loop (red : N -> N) (generator : N) (bits : nat) (lut : list N) (pow : N) : list N :=
  match bits with
  | O => lut
  | S bits' =>
    lut_loop red generator bits' (lut ++ map (fun e => gadd e pow) lut) (gmul_with red pow generator)
  end.
Definition init_lifting_lut (red : N -> N) (generator : N) : list N :=
  lut_loop red generator 7 [0; 1] generator.

(** GF2E::set_coeff on a fresh (zero) object, field.h:38 *)
Definition set_coeffs (l : list N) : N := fold_left (fun d i => N.lor d (shl 1 i)) l 0.

Definition mk_fctx (bs : nat) (modulus : N) (red : N -> N) (gen : N) : fctx :=
  mkFctx bs modulus red (init_lifting_lut red gen).

(** the four cases of GF2E::init_extension_field, field.cpp:188-312 *)
Definition ctx16 : fctx :=
  mk_fctx 2 (set_coeffs [16; 5; 3; 1; 0]) reduce_GF2_16 (set_coeffs [14; 8; 7; 6; 3; 2; 0]).
Definition ctx32 : fctx :=
  mk_fctx 4 (set_coeffs [32; 7; 3; 2; 0]) reduce_GF2_32
    (set_coeffs [30; 23; 21; 18; 14; 13; 11; 9; 7; 6; 5; 4; 3; 1]).
Definition ctx40 : fctx :=
  mk_fctx 5 (set_coeffs [40; 5; 4; 3; 0]) reduce_GF2_40
    (set_coeffs [31; 30; 27; 25; 22; 21; 20; 18; 15; 9; 6; 4; 2]).
Definition ctx48 : fctx :=
  mk_fctx 6 (set_coeffs [48; 5; 3; 2; 0]) reduce_GF2_48
    (set_coeffs [45; 43; 40; 37; 36; 35; 34; 33; 31; 30; 29; 28; 24; 21; 20; 19; 16; 14; 13; 11; 10; 7; 3; 2]).

(** GF2E::init_extension_field, field.cpp:188-312, as a function of instance.lambda *)
Definition init_extension_field (lambda : nat) : res fctx :=
  match lambda with
  | 2%nat => Ok ctx16
  | 4%nat => Ok ctx32
  | 5%nat => Ok ctx40
  | 6%nat => Ok ctx48
  | _ => Throw ELambda
  end.

(** Static state of the process, and the operations whose behaviour depends on it. *)
Definition fstate := option fctx.
Definition st_byte_size (s : fstate) : nat :=
  match s with None => 0%nat | Some c => fc_byte_size c end.
(** operator* as a function of the process state: std::bad_function_call while [reduce] is empty *)
Definition st_gmul (s : fstate) (a b : N) : res N :=
  match s with None => Throw EBadFunctionCall | Some c => Ok (gmul c a b) end.
(** init_extension_field as a state transition; on an unknown lambda nothing is modified *)
Definition st_init (s : fstate) (lambda : nat) : fstate * res unit :=
  match init_extension_field lambda with
  | Ok c => (Some c, Ok tt)
  | Throw e => (s, Throw e)
  | UB r => (s, UB r)
  | OutOfFuel => (s, OutOfFuel)
  end.

(** lift_uint8_t, field.cpp:314; the argument is a uint8_t and the table has 256 entries *)
Definition lift (c : fctx) (v : N) : N := nth (N.to_nat v) (fc_lut c) 0.

(** GF2E::to_bytes, field.cpp:172-180: the low byte_size bytes, little endian *)
Definition to_bytes (bs : nat) (a : N) : bytes := le_bytes bs (w64 a).
(** GF2E::from_bytes, field.cpp:182-186, on exactly byte_size input bytes *)
Definition from_bytes (l : bytes) : N := le_word l.

(** get_first_n_field_elements, field.cpp:316-326 *)
Fixpoint first_elements_loop (c : fctx) (n : nat) (gen : N) : list N :=
  match n with
  | O => []
  | S n' => gen :: first_elements_loop c n' (gmul c gen 2)
  end.
Definition get_first_n_field_elements (c : fctx) (n : nat) : list N :=
  first_elements_loop c n 2.

(** dot_product, field.cpp:427-443: one lazy reduction of the accumulated 128-bit sum *)
Fixpoint dot_accum (accum : N) (lhs rhs : list N) : N :=
  match lhs, rhs with
  | a :: lhs', b :: rhs' => dot_accum (N.lxor accum (clmul64 a b)) lhs' rhs'
  | _, _ => accum
  end.
Definition dot_product (c : fctx) (lhs rhs : list N) : res N :=
  if negb (length lhs =? length rhs)%nat then Throw ESizeMismatch
  else Ok (fc_reduce c (dot_accum 0 lhs rhs)).
