(** Four Keccak states as four arrays of 200 bytes, and what the functions on them are meant to do: those that the four-way
    sponge of the repository uses and those it does not.  Nothing here models a specific function of /repo. *)
From Coq Require Import Arith NArith List Bool.
From Verif Require Import Prelude KeccakSpec StateSpec.
Import ListNotations.

(** a call on four states.  The functions on lanes of all states take the data for state i from lane laneOffset * i on. *)
Inductive four_call :=
| OnState (i : nat) (c : state_call)
| AddLanesAll (d : bytes) (laneCount laneOffset : nat)
| OverwriteLanesAll (d : bytes) (laneCount laneOffset : nat)
(** out: the memory the lanes are written to *)
| ExtractLanesAll (out : bytes) (laneCount laneOffset : nat)
| ExtractAndAddLanesAll (input out : bytes) (laneCount laneOffset : nat)
| PermuteAll_24rounds
| PermuteAll_12rounds
| PermuteAll_6rounds
| PermuteAll_4rounds.
(** f applied to each number of a state and the state *)
Definition each (f : nat -> bytes -> bytes) (sts : list bytes) : list bytes := map (fun p => f (fst p) (snd p)) (combine (seq 0 (length sts)) sts).
(** out with f i (state i) written from byte n * i on, for each i *)
Definition spread (f : nat -> bytes -> bytes) (n : nat) (sts : list bytes) (out : bytes) : bytes :=
  fold_left (fun out p => put out (n * fst p) (f (fst p) (snd p))) (combine (seq 0 (length sts)) sts) out.
(** the states afterwards and the bytes the caller gets: those extracted, or the memory written to *)
Definition four_step (sts : list bytes) (c : four_call) : list bytes * bytes :=
  match c with
  | OnState i c => let (st, o) := state_step (nth i sts []) c in (firstn i sts ++ st :: skipn (S i) sts, o)
  | AddLanesAll d k off => (each (fun i st => put st 0 (xor_with (part st 0 (8 * k)) (part d (8 * off * i) (8 * k)))) sts, [])
  | OverwriteLanesAll d k off => (each (fun i st => put st 0 (part d (8 * off * i) (8 * k))) sts, [])
  | ExtractLanesAll out k off => (sts, spread (fun i st => part st 0 (8 * k)) (8 * off) sts out)
  | ExtractAndAddLanesAll input out k off => (sts, spread (fun i st => xor_with (part input (8 * off * i) (8 * k)) (part st 0 (8 * k))) (8 * off) sts out)
  | PermuteAll_24rounds => (map (fun st => bytes_of (keccak_f (bits_of st))) sts, [])
  | PermuteAll_12rounds => (map (fun st => bytes_of (keccak_p 12 (bits_of st))) sts, [])
  | PermuteAll_6rounds => (map (fun st => bytes_of (keccak_p 6 (bits_of st))) sts, [])
  | PermuteAll_4rounds => (map (fun st => bytes_of (keccak_p 4 (bits_of st))) sts, [])
  end.
Fixpoint four_steps (sts : list bytes) (cs : list four_call) : list bytes :=
  match cs with [] => [] | c :: cs' => let (sts', o) := four_step sts c in o :: four_steps sts' cs' end.
(** what the caller gets of four states that are initialised and then given the calls *)
Definition four_run (cs : list four_call) : list bytes := four_steps (repeat (repeat 0%N 200) 4) cs.
(** within bounds: at most 25 lanes; lanes written for different states do not overlap.  There are no functions to permute one
    of the states, and none that absorbs blocks is considered here. *)
Definition four_ok (c : four_call) : Prop :=
  match c with
  | OnState i c => i < 4 /\ call_ok c /\ match c with AddByte _ _ | AddBytes _ _ _ | OverwriteBytes _ _ _ | OverwriteWithZeroes _ | ExtractBytes _ _ | ExtractAndAddBytes _ _ _ _ _ => True | _ => False end
  | AddLanesAll d k off | OverwriteLanesAll d k off => is_bytes d /\ k <= 25 /\ 8 * off * 3 + 8 * k <= length d
  | ExtractLanesAll out k off => is_bytes out /\ k <= 25 /\ k <= off /\ 8 * off * 3 + 8 * k <= length out
  | ExtractAndAddLanesAll input out k off => is_bytes input /\ is_bytes out /\ k <= 25 /\ k <= off /\ 8 * off * 3 + 8 * k <= length input /\ 8 * off * 3 + 8 * k <= length out
  | PermuteAll_24rounds | PermuteAll_12rounds | PermuteAll_6rounds | PermuteAll_4rounds => True
  end.
