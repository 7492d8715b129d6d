(** One hash oracle for all builds: SHAKE of FIPS 202 on byte strings, and the calls a caller of kdf_shake.h makes, on the
    hash contexts of HashModel. *)
From Coq Require Import Arith NArith List Bool.
From Verif Require Import Prelude HashModel KeccakSpec.
Import ListNotations.

(** the number with the given bits, least significant first *)
Fixpoint bits_num (l : list bool) : N := match l with [] => 0 | b :: l' => N.b2n b + 2 * bits_num l' end%N.
(** byte i of the output of SHAKE128 (v = true) or SHAKE256 (v = false) on the byte string m *)
Definition FIPS202 : oracle := fun v m i =>
  bits_num (firstn 8 (skipn (8 * i) ((if v then SHAKE128 else SHAKE256) (bits_of m) (8 * (i + 1))))).
(** init, updates, final, squeezes *)
Fixpoint squeezes (H : oracle) (c : hctx) (lens : list nat) : list bytes :=
  match lens with
  | [] => []
  | n :: lens' => let '(o, c') := hash_squeeze H c n in o :: squeezes H c' lens'
  end.
Definition hash_calls (H : oracle) (digest : nat) (chunks : list bytes) (lens : list nat) : list bytes :=
  squeezes H (hash_final (fold_left hash_update chunks (hash_init digest))) lens.
Fixpoint squeezes_x4 (H : oracle) (c : hctx4) (lens : list nat) : list (list bytes) :=
  match lens with
  | [] => []
  | n :: lens' => let '(o, c') := hash_squeeze_x4 H c n in o :: squeezes_x4 H c' lens'
  end.
Definition hash_calls_x4 (H : oracle) (digest : nat) (chunks : list (list bytes)) (lens : list nat) : list (list bytes) :=
  squeezes_x4 H (hash_final_x4 (fold_left hash_update_x4_4 chunks (hash_init_x4 digest))) lens.
