(** Absorbing blocks of data into four Keccak states at once.  Nothing here models a specific function of /repo. *)
From Coq Require Import Arith NArith List Bool.
From Verif Require Import Prelude KeccakSpec StateSpec FourSpec.
Import ListNotations.

(** Block j for state i is the laneCount lanes of d from lane laneOffsetSerial * j + laneOffsetParallel * i on.  The number of j for which the
    blocks of all four states lie within len bytes: *)
Definition block_count (laneCount laneOffsetParallel laneOffsetSerial len : nat) : nat :=
  let need := 8 * (laneOffsetParallel * 3 + laneCount) in
  if need <=? len then (len - need) / (8 * laneOffsetSerial) + 1 else 0.
Definition absorb_four (f : bytes -> bytes) (sts : list bytes) (k par ser : nat) (d : bytes) : list bytes :=
  fold_left (fun sts j => each (fun i st => f (put st 0 (xor_with (part st 0 (8 * k)) (part d (8 * ser * j + 8 * par * i) (8 * k))))) sts) (seq 0 (block_count k par ser (length d))) sts.
(** the calls of FourSpec and the two absorbing loops, with 24 and with 12 rounds *)
Inductive fast_call :=
| Plain (c : four_call)
| FastLoop (laneCount laneOffsetParallel laneOffsetSerial : nat) (d : bytes)
| FastLoop_12rounds (laneCount laneOffsetParallel laneOffsetSerial : nat) (d : bytes).
(** the states afterwards and what the caller gets; of a loop, the number of bytes from the start of the data to the next block *)
Definition fast_step (sts : list bytes) (c : fast_call) : list bytes * bytes :=
  match c with
  | Plain c => four_step sts c
  | FastLoop k par ser d => (absorb_four (fun st => bytes_of (keccak_f (bits_of st))) sts k par ser d, [N.of_nat (8 * ser * block_count k par ser (length d))])
  | FastLoop_12rounds k par ser d => (absorb_four (fun st => bytes_of (keccak_p 12 (bits_of st))) sts k par ser d, [N.of_nat (8 * ser * block_count k par ser (length d))])
  end.
Fixpoint fast_steps (sts : list bytes) (cs : list fast_call) : list bytes :=
  match cs with [] => [] | c :: cs' => let (sts', o) := fast_step sts c in o :: fast_steps sts' cs' end.
Definition fast_run (cs : list fast_call) : list bytes := fast_steps (repeat (repeat 0%N 200) 4) cs.
(** at most 25 lanes; blocks that advance, and do not advance beyond the end of the data *)
Definition fast_ok (c : fast_call) : Prop :=
  match c with
  | Plain c => four_ok c
  | FastLoop k par ser d | FastLoop_12rounds k par ser d => is_bytes d /\ (N.of_nat (length d) < 2 ^ 64)%N /\ k <= 25 /\ 1 <= ser /\ 8 * ser * block_count k par ser (length d) <= length d
  end.
