(** Memory as the implementations of SnP see it: an array of bytes, read and written as 64-bit little-endian words or as
    bytes.  Nothing here models a specific function of /repo.  Alignment and the aliasing rules of C are not modelled. *)
From Coq Require Import Arith NArith List Bool.
From Verif Require Import Prelude SpongeModel.
Import ListNotations.

(** ((uint64_t * )m)[i] *)
Definition load64 (m : bytes) (i : nat) : res N :=
  if 8 * i + 8 <=? length m then Ok (le_word (slice m (8 * i) 8)) else UB OutOfBounds.
Definition store64 (m : bytes) (i : nat) (w : N) : res bytes :=
  if 8 * i + 8 <=? length m then Ok (firstn (8 * i) m ++ le_bytes 8 w ++ skipn (8 * i + 8) m) else UB OutOfBounds.
(** ((uint64_t * )m)[i] ^= w *)
Definition xor64 (m : bytes) (i : nat) (w : N) : res bytes := do a <- load64 m i; store64 m i (N.lxor a w).
(** ((unsigned char * )m)[k] ^= b *)
Definition xor8 (m : bytes) (k : nat) (b : N) : res bytes := do a <- get m k; set m k (N.lxor a b).
(** memcpy(&w, d, n) into a uint64_t w that is 0 *)
Definition load_part (d : bytes) (n : nat) : res N :=
  if (n <=? 8) && (n <=? length d) then Ok (le_word (firstn n d)) else UB OutOfBounds.
(** w << k on uint64_t *)
Definition shl64 (w : N) (k : nat) : res N := if k <? 64 then Ok (N.shiftl w (N.of_nat k) mod 2 ^ 64)%N else UB OutOfBounds.
