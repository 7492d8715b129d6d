(** Specification for the hash library over its two implementations; bit strings and FIPS 202 are in BitHashSpec and KeccakSpec *)
From Coq Require Import Arith NArith List.
From Verif Require KeccakSpec.
From Verif Require Import Prelude BitHashSpec.
Import ListNotations.

(** g is the output of the sponge of FIPS 202 with KECCAK-f[1600], rate r and the bit string n: its first bytes, however many, are
    the first bits of SPONGE(n) *)
Definition is_sponge (r : nat) (n : list bool) (g : nat -> N) : Prop := forall k, KeccakSpec.bits_of (outputs g 0 k) = KeccakSpec.sponge r n (8 * k).
(** arguments that a caller can pass: the buffer consists of bytes, the number of bits is a size_t *)
Definition machine_call (c : call) : Prop := match c with Update d n => Forall (fun b => b < 256)%N d /\ (n < 2 ^ 64)%N | _ => True end.
