(** Model of keccak/opt64, continued: the functions of KeccakP-1600-opt64.c that overwrite bytes of a state, extract bytes and
    add them to data, and apply fewer than 24 rounds.  Assumptions as in Opt64Model. *)
From Coq Require Import Arith NArith List Bool.
From Verif Require Import Prelude SpongeModel KeccakModel SnpMem Opt64Model StateSpec.
Import ListNotations.

(** memcpy and memset: d is written from byte k of m on *)
Definition write_at (m : bytes) (k : nat) (d : bytes) : res bytes :=
  if k + length d <=? length m then Ok (firstn k m ++ d ++ skipn (k + length d) m) else UB OutOfBounds.
(** KeccakP1600_OverwriteBytesInLane, KeccakP-1600-opt64.c:185-217 *)
Definition overwrite_bytes_in_lane (m : bytes) (lanePosition : nat) (data : bytes) (offset length : nat) : res bytes :=
  do d <- read data 0 length; write_at m (lanePosition * 8 + offset) d.
(** KeccakP1600_OverwriteLanes, KeccakP-1600-opt64.c:221-256 *)
Definition overwrite_lanes (m data : bytes) (laneCount : nat) : res bytes :=
  do d <- read data 0 (laneCount * 8); write_at m 0 d.
(** the loop of the macro SnP_OverwriteBytes, SnP-Relaned.h:64-79; data is _curData *)
Fixpoint relaned_overwrite (fuel : nat) (m data : bytes) (sizeLeft lanePosition offsetInLane : nat) : res bytes :=
  match fuel with
  | O => OutOfFuel
  | S fuel' =>
    if 0 <? sizeLeft
    then
      let bytesInLane := 8 - offsetInLane in
      let bytesInLane := if sizeLeft <? bytesInLane then sizeLeft else bytesInLane in
      do m' <- overwrite_bytes_in_lane m lanePosition data offsetInLane bytesInLane;
      relaned_overwrite fuel' m' (skipn bytesInLane data) (sizeLeft - bytesInLane) (lanePosition + 1) 0
    else Ok m
  end.
(** KeccakP1600_OverwriteBytes, KeccakP-1600-opt64.c:260-264, SnP-Relaned.h:54-80 *)
Definition opt_overwrite (m data : bytes) (offset length : nat) : res bytes :=
  if offset =? 0
  then do m' <- overwrite_lanes m data (length / 8); overwrite_bytes_in_lane m' (length / 8) (skipn (length / 8 * 8) data) 0 (length mod 8)
  else relaned_overwrite (S length) m data length (offset / 8) (offset mod 8).
(** KeccakP1600_OverwriteWithZeroes, KeccakP-1600-opt64.c:268-318: memset(state, 0, byteCount) *)
Definition opt_zeroes (m : bytes) (byteCount : nat) : res bytes := write_at m 0 (repeat 0%N byteCount).

(** rounds12, KeccakP-1600-unrolling.macros:45-58 *)
Definition rounds12 (A : lanes) : lanes :=
  let C := prepare_theta A in
  let (E, C) := theta_rho_pi_chi_iota_prepare_theta 12 A C in
  let (A, C) := theta_rho_pi_chi_iota_prepare_theta 13 E C in
  let (E, C) := theta_rho_pi_chi_iota_prepare_theta 14 A C in
  let (A, C) := theta_rho_pi_chi_iota_prepare_theta 15 E C in
  let (E, C) := theta_rho_pi_chi_iota_prepare_theta 16 A C in
  let (A, C) := theta_rho_pi_chi_iota_prepare_theta 17 E C in
  let (E, C) := theta_rho_pi_chi_iota_prepare_theta 18 A C in
  let (A, C) := theta_rho_pi_chi_iota_prepare_theta 19 E C in
  let (E, C) := theta_rho_pi_chi_iota_prepare_theta 20 A C in
  let (A, C) := theta_rho_pi_chi_iota_prepare_theta 21 E C in
  let (E, C) := theta_rho_pi_chi_iota_prepare_theta 22 A C in
  theta_rho_pi_chi_iota 23 E C.
(** KeccakP1600_Permute_12rounds, KeccakP-1600-opt64.c:343-351 *)
Definition opt_permute12 (m : bytes) : res bytes := if length m =? 200 then Ok (copy_to_state (rounds12 (copy_from_state m))) else UB OutOfBounds.
(** thetaRhoPiChiIotaPrepareTheta(i, ...) with an i that is not a literal: KeccakF1600RoundConstants has 24 entries,
    KeccakP-1600-opt64.c:62-71 *)
Definition round_at (i : N) (A : lanes) (C : cols) : res (lanes * cols) :=
  if (i <? 24)%N then Ok (theta_rho_pi_chi_iota_prepare_theta (N.to_nat i) A C) else UB OutOfBounds.
(** the loop of roundsN, KeccakP-1600-unrolling.macros:302-305 *)
Fixpoint rounds_by_two (fuel : nat) (i : N) (A : lanes) (C : cols) : res lanes :=
  match fuel with
  | O => OutOfFuel
  | S fuel' =>
    if (i <? 24)%N
    then do (E, C) <- round_at i A C; do (A, C) <- round_at (i + 1) E C; rounds_by_two fuel' (u32 (i + 2)) A C
    else Ok A
  end.
(** roundsN, KeccakP-1600-unrolling.macros:294-305; i is an unsigned int *)
Definition roundsN (nr : N) (A : lanes) : res lanes :=
  let C := prepare_theta A in
  let i := u32 (24 + (2 ^ 32 - nr)) in
  if N.odd i
  then do (E, C) <- round_at i A C; rounds_by_two 13 (u32 (i + 1)) E C
  else rounds_by_two 13 i A C.
(** KeccakP1600_Permute_Nrounds, KeccakP-1600-opt64.c:322-327 *)
Definition opt_permuteN (m : bytes) (nr : N) : res bytes :=
  if length m =? 200 then do A <- roundsN nr (copy_from_state m); Ok (copy_to_state A) else UB OutOfBounds.

(** KeccakP1600_ExtractAndAddBytesInLane, KeccakP-1600-opt64.c:434-457; input and output are positions in one memory mem, so
    that they may overlap; the lane is read even when length is 0 *)
Definition xadd_in_lane (m : bytes) (lanePosition : nat) (mem : bytes) (input output offset length : nat) : res bytes :=
  do lane <- load64 m lanePosition;
  foldM (fun mem i => do a <- get mem (input + i); do b <- get (le_bytes 8 lane) (offset + i); set mem (output + i) (N.lxor a b)) (seq 0 length) mem.
(** KeccakP1600_ExtractAndAddLanes, KeccakP-1600-opt64.c:461-502 *)
Definition xadd_lanes (m mem : bytes) (input output laneCount : nat) : res bytes :=
  foldM (fun mem i => do a <- read mem (input + 8 * i) 8; do b <- load64 m i; write_at mem (output + 8 * i) (le_bytes 8 (N.lxor (le_word a) b))) (seq 0 laneCount) mem.
(** the loop of the macro SnP_ExtractAndAddBytes, SnP-Relaned.h:121-139 *)
Fixpoint relaned_xadd (fuel : nat) (m mem : bytes) (input output sizeLeft lanePosition offsetInLane : nat) : res bytes :=
  match fuel with
  | O => OutOfFuel
  | S fuel' =>
    if 0 <? sizeLeft
    then
      let bytesInLane := 8 - offsetInLane in
      let bytesInLane := if sizeLeft <? bytesInLane then sizeLeft else bytesInLane in
      do mem' <- xadd_in_lane m lanePosition mem input output offsetInLane bytesInLane;
      relaned_xadd fuel' m mem' (input + bytesInLane) (output + bytesInLane) (sizeLeft - bytesInLane) (lanePosition + 1) 0
    else Ok mem
  end.
(** KeccakP1600_ExtractAndAddBytes, KeccakP-1600-opt64.c:506-514, SnP-Relaned.h:110-140 *)
Definition opt_xadd (m mem : bytes) (input output offset length : nat) : res bytes :=
  if offset =? 0
  then
    do mem' <- xadd_lanes m mem input output (length / 8);
    xadd_in_lane m (length / 8) mem' (input + length / 8 * 8) (output + length / 8 * 8) 0 (length mod 8)
  else relaned_xadd (S length) m mem input output length (offset / 8) (offset mod 8).

(** the loop of KeccakP1600_12rounds_FastLoop_Absorb, KeccakP-1600-opt64.c:549-552 *)
Fixpoint opt_fast12_loop (fuel : nat) (A : lanes) (laneCount : nat) (data : bytes) : res (lanes * bytes) :=
  match fuel with
  | O => OutOfFuel
  | S fuel' =>
    if laneCount * 8 <=? length data
    then
      do l <- foldM (fun l p => do a <- get l (fst p); do b <- load64 data (snd p); set l (fst p) (N.lxor a b)) (add_input laneCount) (lanes_list A);
      opt_fast12_loop fuel' (rounds12 (list_lanes l)) laneCount (skipn (laneCount * 8) data)
    else Ok (A, data)
  end.
(** KeccakP1600_12rounds_FastLoop_Absorb, KeccakP-1600-opt64.c:538-554 *)
Definition opt_fast12 (fuel : nat) (m : bytes) (laneCount : nat) (data : bytes) : res (bytes * nat) :=
  if length m =? 200
  then do (A, rest) <- opt_fast12_loop fuel (copy_from_state m) laneCount data; Ok (copy_to_state A, length data - length rest)
  else UB OutOfBounds.
