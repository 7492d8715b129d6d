(** Keccak states as arrays of 200 bytes, and what the functions on them are meant to do: those that the sponge of the
    repository uses and those it does not.  Nothing here models a specific function of /repo. *)
From Coq Require Import Arith NArith List Bool.
From Verif Require Import Prelude KeccakSpec.
Import ListNotations.

(** m with the bytes d in place of those from byte off on *)
Definition put (m : bytes) (off : nat) (d : bytes) : bytes := firstn off m ++ d ++ skipn (off + length d) m.
(** byte by byte exclusive or *)
Definition xor_with (a b : bytes) : bytes := map (fun p => N.lxor (fst p) (snd p)) (combine a b).
(** the n bytes of m from byte off on *)
Definition part (m : bytes) (off n : nat) : bytes := firstn n (skipn off m).
(** the byte string of a bit string: the inverse of bits_of *)
Definition byte_of (l : list bool) : N := fold_right (fun (b : bool) n => ((if b then 1 else 0) + 2 * n)%N) 0%N l.
Definition bytes_of (l : list bool) : bytes := map (fun i => byte_of (firstn 8 (skipn (8 * i) l))) (seq 0 (length l / 8)).
(** KECCAK-p[1600, nr], FIPS 202, algorithm 7: the last nr of the 24 rounds *)
Definition keccak_p (nr : nat) (S : list bool) : list bool := to_string (fold_left Rnd (seq (24 - nr) nr) (to_state S)).
(** d cut into blocks of n bytes, without what is left over; each block xored into the state, which is then permuted by f *)
Definition blocks (n : nat) (d : bytes) : list bytes := map (fun i => part d (n * i) n) (seq 0 (length d / n)).
Definition absorb (f : bytes -> bytes) (st : bytes) (n : nat) (d : bytes) : bytes := fold_left (fun st b => f (put st 0 (xor_with (part st 0 n) b))) (blocks n d) st.

(** a call on a state *)
Inductive state_call :=
| AddByte (b : N) (off : nat)
| AddBytes (d : bytes) (off len : nat)
| OverwriteBytes (d : bytes) (off len : nat)
| OverwriteWithZeroes (n : nat)
| Permute_24rounds
| Permute_12rounds
| Permute_Nrounds (nr : nat)
| ExtractBytes (off len : nat)
(** mem: memory with the input at byte input and the output at byte output *)
| ExtractAndAddBytes (mem : bytes) (input output off len : nat)
| FastLoop_Absorb (laneCount : nat) (d : bytes)
| FastLoop_Absorb_12rounds (laneCount : nat) (d : bytes).
(** the state afterwards and the bytes the caller gets: those extracted; the memory of input and output; the
    number of bytes absorbed *)
Definition state_step (st : bytes) (c : state_call) : bytes * bytes :=
  match c with
  | AddByte b off => (put st off (xor_with (part st off 1) [b]), [])
  | AddBytes d off len => (put st off (xor_with (part st off len) (firstn len d)), [])
  | OverwriteBytes d off len => (put st off (firstn len d), [])
  | OverwriteWithZeroes n => (put st 0 (repeat 0%N n), [])
  | Permute_24rounds => (bytes_of (keccak_f (bits_of st)), [])
  | Permute_12rounds => (bytes_of (keccak_p 12 (bits_of st)), [])
  | Permute_Nrounds nr => (bytes_of (keccak_p nr (bits_of st)), [])
  | ExtractBytes off len => (st, part st off len)
  | ExtractAndAddBytes mem input output off len => (st, put mem output (xor_with (part mem input len) (part st off len)))
  | FastLoop_Absorb k d => (absorb (fun st => bytes_of (keccak_f (bits_of st))) st (8 * k) d, [N.of_nat (8 * k * (length d / (8 * k)))])
  | FastLoop_Absorb_12rounds k d => (absorb (fun st => bytes_of (keccak_p 12 (bits_of st))) st (8 * k) d, [N.of_nat (8 * k * (length d / (8 * k)))])
  end.
Fixpoint state_steps (st : bytes) (cs : list state_call) : list bytes :=
  match cs with [] => [] | c :: cs' => let (st', o) := state_step st c in o :: state_steps st' cs' end.
(** what the caller gets of a state that is initialised and then given the calls *)
Definition state_run (cs : list state_call) : list bytes := state_steps (repeat 0%N 200) cs.
(** within bounds; 1 to 24 rounds; 1 to 25 lanes; an output that does not overwrite input yet to be read *)
Definition call_ok (c : state_call) : Prop :=
  match c with
  | AddByte b off => is_byte b /\ off < 200
  | AddBytes d off len | OverwriteBytes d off len => is_bytes d /\ len <= length d /\ off + len <= 200
  | OverwriteWithZeroes n => n <= 200
  | Permute_24rounds | Permute_12rounds => True
  | Permute_Nrounds nr => 1 <= nr <= 24
  | ExtractBytes off len => off + len <= 200
  | ExtractAndAddBytes mem input output off len =>
      is_bytes mem /\ off + len <= 200 /\ input + len <= length mem /\ output + len <= length mem /\ (output <= input \/ input + len <= output)
  | FastLoop_Absorb k d | FastLoop_Absorb_12rounds k d => is_bytes d /\ 1 <= k <= 25 /\ (N.of_nat (length d) < 2 ^ 63)%N
  end.
