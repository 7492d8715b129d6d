(** C87: compression of Kravatte, four blocks at a time, of keccak/avx2/KeccakP-1600-times4-SIMD256.c.  Specification: KravSpec. *)
From Coq Require Import Arith NArith List Bool Lia.
From Verif Require Import Prelude SpongeModel KeccakSpec X86Model Simd256Model StateSpec FourModel KravSpec KravModel KravFacts KravLoop.
Import ListNotations.

(** Partial: not for inputs below 800 bytes, see C87_short_refuted.  For every accumulator, key and input of at least 800 bytes, of arrays and tables aligned to 32 bytes: each whole group of four
    blocks of the input is added to the key as it rolls, permuted with 6 rounds and added to the accumulator; the key is left
    rolled once per block; the number of bytes used is returned. *)
Theorem C87_compress_partial : forall at_accu at_roll at_rho8 at_rho56 acc key d,
  (at_accu mod 32 = 0 /\ at_roll mod 32 = 0 /\ at_rho8 mod 32 = 0 /\ at_rho56 mod 32 = 0)%N ->
  length acc = 25 -> length key = 25 -> Forall (fun w => (w < 2 ^ 64)%N) key -> is_bytes d -> 800 <= length d -> (N.of_nat (length d) < 2 ^ 64)%N ->
  let groups := length d / 800 in
  KravatteCompress at_accu at_roll at_rho8 at_rho56 acc key d = Ok (compressed acc key d (4 * groups), Nat.iter (4 * groups) rolled key, 800 * groups).
Proof.
  intros a r t8 t56 acc key d HP La Lk Fk Bd H8 Hd. cbv zeta. apply compress_ok; try assumption; [split; assumption|reflexivity|].
  apply Nat.div_le_lower_bound; lia.
Qed.
Print Assumptions C87_compress_partial.
(** Less than four blocks, nothing at all included, is not "nothing to do": the loop runs before its counter is looked at, and
    the first turn reads beyond the input. *)
Theorem C87_short_refuted : forall at_accu at_roll at_rho8 at_rho56 acc key d,
  (at_accu mod 32 = 0 /\ at_roll mod 32 = 0 /\ at_rho8 mod 32 = 0 /\ at_rho56 mod 32 = 0)%N -> length key = 25 -> length d < 800 ->
  KravatteCompress at_accu at_roll at_rho8 at_rho56 acc key d = UB OutOfBounds.
Proof. exact short_ok. Qed.
Print Assumptions C87_short_refuted.

(** Two groups and five bytes more; the key rolls *)
Definition some_key : list N := map (fun i => 0x8000000000000001 + N.of_nat i)%N (seq 0 25).
Definition some_input : bytes := map (fun i => N.of_nat i mod 256)%N (seq 0 1605).
Example C87_case : KravatteCompress 32 64 96 128 (repeat 0%N 25) some_key some_input = Ok (compressed (repeat 0%N 25) some_key some_input 8, Nat.iter 8 rolled some_key, 1600) /\
  nth 20 (Nat.iter 8 rolled some_key) 0%N <> nth 20 some_key 0%N /\ firstn 20 (Nat.iter 8 rolled some_key) = firstn 20 some_key.
Proof.
  split; [|split; [vm_compute; discriminate|vm_compute; reflexivity]].
  change 8 with (4 * (length some_input / 800)) at 1 2. change 1600 with (800 * (length some_input / 800)).
  apply C87_compress_partial; try reflexivity; [repeat split|apply Forall_forall; intros w Hw; apply in_map_iff in Hw; destruct Hw as (i & <- & Hi); apply in_seq in Hi; lia| |].
  - apply Forall_forall. intros w Hw. apply in_map_iff in Hw. destruct Hw as (i & <- & Hi). apply N.mod_lt. discriminate.
  - apply Nat.leb_le. reflexivity.
Qed.
Example C87_short_case : KravatteCompress 32 64 96 128 (repeat 0%N 25) some_key [] = UB OutOfBounds.
Proof. apply C87_short_refuted; [repeat split|reflexivity|apply Nat.ltb_lt; reflexivity]. Qed.
