(** What a hash of a byte string is: the sponge construction of FIPS 202 with the suffix and padding of SHAKE, on byte
    strings, for an arbitrary permutation f of 200-byte states.  Independent of SpongeModel. *)
From Coq Require Import Arith NArith List Bool.
Import ListNotations.

(** SHAKE's suffix 1111 and pad10*1, least significant bit first: 0x1F, zeros, 0x80 up to a multiple of the rate; when
    exactly one byte is missing the two bytes fall together *)
Definition shake_pad (rate : nat) (m : list N) : list N :=
  let missing := rate - length m mod rate in
  if missing =? 1 then m ++ [0x9F%N]
  else m ++ [0x1F%N] ++ repeat 0%N (missing - 2) ++ [0x80%N].
Definition xor_block (st b : list N) : list N := map (fun i => N.lxor (nth i st 0%N) (nth i b 0%N)) (seq 0 (length st)).
Section Spec.
Variable f : list N -> list N.
Variable rate : nat.
(** absorb n blocks *)
Fixpoint absorb_n (n : nat) (st : list N) (p : list N) : list N :=
  match n with
  | O => st
  | S n' => absorb_n n' (f (xor_block st (firstn rate p))) (skipn rate p)
  end.
Definition absorbed (m : list N) : list N :=
  absorb_n (length (shake_pad rate m) / rate) (repeat 0%N 200) (shake_pad rate m).
(** output byte i: byte (i mod rate) of the state after (i / rate) more permutations *)
Definition shake_byte (m : list N) (i : nat) : N :=
  nth (i mod rate) (Nat.iter (i / rate) f (absorbed m)) 0%N.
End Spec.
(** rates in bytes of SHAKE128 and SHAKE256 *)
Definition shake_rate (v : bool) : nat := if v then 168 else 136.
(** as a hash oracle *)
Definition shake (f : list N -> list N) (v : bool) (m : list N) (i : nat) : N := shake_byte f (shake_rate v) m i.

(** when the 32-bit arithmetic on the remaining length (dataByteLen - i) goes well, at position idx of a block *)
Definition good_length (rate idx : nat) (len : N) : Prop :=
  (len + N.of_nat idx < 2 ^ 32 \/ (N.of_nat rate <= len mod 2 ^ 32 + N.of_nat idx < 2 ^ 32))%N.
