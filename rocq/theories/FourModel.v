(** Model of the four-way functions that banquet does not use: keccak/avx2/KeccakP-1600-times4-SIMD256.c continues Simd256Model,
    keccak/opt64/PlSnP-Fallback.inc continues Opt64Model.  laneOffset * 3 * 8 is taken to be below 2^32; the fast loops are in
    Fast4Model, and Kravatte is not modelled.  An aligned access to the states is checked where it happens. *)
From Coq Require Import Arith NArith List Bool.
From Verif Require Import Prelude SpongeModel SnpMem SnpSponge X86Model Opt64Model Opt64More Simd256Model StateSpec FourSpec.
Import ListNotations.

(** ** KeccakP-1600-times4-SIMD256.c: intrinsics, lines 49-95 *)
(** _mm256_unpacklo_epi64, _mm256_unpackhi_epi64; lines 71-72 *)
Definition UNPACKL (a b : V256) : V256 := V4 (w0 a) (w0 b) (w2 a) (w2 b).
Definition UNPACKH (a b : V256) : V256 := V4 (w1 a) (w1 b) (w3 a) (w3 b).
(** _mm256_permute2f128_si256(a, b, c): bits 0-1 and 4-5 of c choose the halves of the result, bits 3 and 7 make them 0; line 73 *)
Definition half_of (a b : V256) (c : N) : N * N :=
  if N.testbit c 3 then (0, 0)%N
  else if N.testbit c 1 then (if N.testbit c 0 then (w2 b, w3 b) else (w0 b, w1 b)) else (if N.testbit c 0 then (w2 a, w3 a) else (w0 a, w1 a)).
Definition PERM128 (a b : V256) (c : N) : V256 :=
  let lo := half_of a b (c mod 16) in let hi := half_of a b (c / 16) in V4 (fst lo) (snd lo) (fst hi) (snd hi).
(** _mm256_shuffle_pd(a, b, c); lines 74-76 *)
Definition SHUFFLE64 (a b : V256) (c : N) : V256 :=
  V4 (if N.testbit c 0 then w1 a else w0 a) (if N.testbit c 1 then w1 b else w0 b) (if N.testbit c 2 then w3 a else w2 a) (if N.testbit c 3 then w3 b else w2 b).
(** UNINTLEAVE, lines 78-84, and INTLEAVE, lines 86-94: lanes0 to lanes3 afterwards *)
Definition UNINTLEAVE (lanes0 lanes1 lanes2 lanes3 : V256) : V256 * V256 * V256 * V256 :=
  let lanesL01 := UNPACKL lanes0 lanes1 in let lanesH01 := UNPACKH lanes0 lanes1 in
  let lanesL23 := UNPACKL lanes2 lanes3 in let lanesH23 := UNPACKH lanes2 lanes3 in
  let lanes0 := PERM128 lanesL01 lanesL23 0x20 in let lanes2 := PERM128 lanesL01 lanesL23 0x31 in
  let lanes1 := PERM128 lanesH01 lanesH23 0x20 in let lanes3 := PERM128 lanesH01 lanesH23 0x31 in
  (lanes0, lanes1, lanes2, lanes3).
Definition INTLEAVE (lanes0 lanes1 lanes2 lanes3 : V256) : V256 * V256 * V256 * V256 :=
  let lanesL01 := PERM128 lanes0 lanes2 0x20 in let lanesH01 := PERM128 lanes1 lanes3 0x20 in
  let lanesL23 := PERM128 lanes0 lanes2 0x31 in let lanesH23 := PERM128 lanes1 lanes3 0x31 in
  let lanes0 := SHUFFLE64 lanesL01 lanesH01 0x00 in let lanes1 := SHUFFLE64 lanesL01 lanesH01 0x0F in
  let lanes2 := SHUFFLE64 lanesL23 lanesH23 0x00 in let lanes3 := SHUFFLE64 lanesL23 lanesH23 0x0F in
  (lanes0, lanes1, lanes2, lanes3).
(** LOAD256u, STORE256u at word k of the data; lines 55, 67 *)
Definition LOAD256u (d : bytes) (k : nat) : res V256 :=
  do x0 <- load64 d k; do x1 <- load64 d (k + 1); do x2 <- load64 d (k + 2); do x3 <- load64 d (k + 3); Ok (V4 x0 x1 x2 x3).
Definition STORE256u (d : bytes) (k : nat) (v : V256) : res bytes :=
  write_at d (8 * k) (le_bytes 8 (w0 v) ++ le_bytes 8 (w1 v) ++ le_bytes 8 (w2 v) ++ le_bytes 8 (w3 v)).
(** LOAD4_64(d[3 * off + a], d[2 * off + a], d[off + a], d[a]); lines 56-57 *)
Definition LOAD4_64 (d : bytes) (off a : nat) : res V256 :=
  do x3 <- load64 d (off * 3 + a); do x2 <- load64 d (off * 2 + a); do x1 <- load64 d (off + a); do x0 <- load64 d a; Ok (V4 x0 x1 x2 x3).

Section Simd.
Variable P : place.
Definition states_aligned {A} (x : res A) : res A := if aligned32 (at_states P) then x else UB OutOfBounds.
(** the shape of the functions on lanes of all states, e.g. lines 173-187: four lanes at a time from 16 lanes on *)
Definition lanes_all {S : Type} (one four : S -> nat -> res S) (m : S) (laneCount : nat) : res S :=
  if 16 <=? laneCount
  then
    do m <- four m 0; do m <- four m 4; do m <- four m 8; do m <- four m 12;
    if 20 <=? laneCount
    then do m <- four m 16; foldM one (seq 20 (laneCount - 20)) m
    else foldM one (seq 16 (laneCount - 16)) m
  else foldM one (seq 0 laneCount) m.
(** XOReq256(stateAsLanes[a], v) *)
Definition xor_lanes (m : bytes) (a : nat) (v : V256) : res bytes := states_aligned (do x <- LOAD256 m a; STORE256 m a (XOR256 x v)).
(** Xor_In, Xor_In4, KeccakP-1600-times4-SIMD256.c:156-171 *)
Definition Xor_In (d : bytes) (off : nat) (m : bytes) (a : nat) : res bytes := do v <- LOAD4_64 d off a; xor_lanes m a v.
Definition Xor_In4 (d : bytes) (off : nat) (m : bytes) (a : nat) : res bytes :=
  do lanes0 <- LOAD256u d a; do lanes1 <- LOAD256u d (off + a); do lanes2 <- LOAD256u d (off * 2 + a); do lanes3 <- LOAD256u d (off * 3 + a);
  let '(lanes0, lanes1, lanes2, lanes3) := INTLEAVE lanes0 lanes1 lanes2 lanes3 in
  do m <- xor_lanes m (a + 0) lanes0; do m <- xor_lanes m (a + 1) lanes1; do m <- xor_lanes m (a + 2) lanes2; xor_lanes m (a + 3) lanes3.
(** KeccakP1600times4_AddLanesAll, KeccakP-1600-times4-SIMD256.c:141-190 *)
Definition add_lanes_all (m d : bytes) (laneCount laneOffset : nat) : res bytes := lanes_all (Xor_In d laneOffset) (Xor_In4 d laneOffset) m laneCount.
(** OverWr, OverWr4, KeccakP-1600-times4-SIMD256.c:246-261 *)
Definition OverWr (d : bytes) (off : nat) (m : bytes) (a : nat) : res bytes := do v <- LOAD4_64 d off a; states_aligned (STORE256 m a v).
Definition OverWr4 (d : bytes) (off : nat) (m : bytes) (a : nat) : res bytes :=
  do lanes0 <- LOAD256u d a; do lanes1 <- LOAD256u d (off + a); do lanes2 <- LOAD256u d (off * 2 + a); do lanes3 <- LOAD256u d (off * 3 + a);
  let '(lanes0, lanes1, lanes2, lanes3) := INTLEAVE lanes0 lanes1 lanes2 lanes3 in
  states_aligned (do m <- STORE256 m (a + 0) lanes0; do m <- STORE256 m (a + 1) lanes1; do m <- STORE256 m (a + 2) lanes2; STORE256 m (a + 3) lanes3).
(** KeccakP1600times4_OverwriteLanesAll, KeccakP-1600-times4-SIMD256.c:230-280 *)
Definition overwrite_lanes_all (m d : bytes) (laneCount laneOffset : nat) : res bytes := lanes_all (OverWr d laneOffset) (OverWr4 d laneOffset) m laneCount.
(** Extr, Extr4, KeccakP-1600-times4-SIMD256.c:357-371; out is the memory at data *)
Definition Extr (m : bytes) (off : nat) (out : bytes) (a : nat) : res bytes :=
  do x <- load64 m (4 * a); do out <- store64 out a x;
  do x <- load64 m (4 * a + 1); do out <- store64 out (off * 1 + a) x;
  do x <- load64 m (4 * a + 2); do out <- store64 out (off * 2 + a) x;
  do x <- load64 m (4 * a + 3); store64 out (off * 3 + a) x.
Definition load_rows (m : bytes) (a : nat) : res (V256 * V256 * V256 * V256) :=
  states_aligned (do lanes0 <- LOAD256 m (a + 0); do lanes1 <- LOAD256 m (a + 1); do lanes2 <- LOAD256 m (a + 2); do lanes3 <- LOAD256 m (a + 3); Ok (UNINTLEAVE lanes0 lanes1 lanes2 lanes3)).
Definition Extr4 (m : bytes) (off : nat) (out : bytes) (a : nat) : res bytes :=
  do (lanes0, lanes1, lanes2, lanes3) <- load_rows m a;
  do out <- STORE256u out a lanes0; do out <- STORE256u out (off * 1 + a) lanes1; do out <- STORE256u out (off * 2 + a) lanes2; STORE256u out (off * 3 + a) lanes3.
(** KeccakP1600times4_ExtractLanesAll, KeccakP-1600-times4-SIMD256.c:340-390 *)
Definition extract_lanes_all (m out : bytes) (laneCount laneOffset : nat) : res bytes := lanes_all (Extr m laneOffset) (Extr4 m laneOffset) out laneCount.
(** ExtrXor, ExtrXor4, KeccakP-1600-times4-SIMD256.c:463-487; input and output are taken to be different objects *)
Definition ExtrXor (m input : bytes) (off : nat) (out : bytes) (a : nat) : res bytes :=
  do y <- load64 input a; do x <- load64 m (4 * a); do out <- store64 out a (N.lxor y x);
  do y <- load64 input (off * 1 + a); do x <- load64 m (4 * a + 1); do out <- store64 out (off * 1 + a) (N.lxor y x);
  do y <- load64 input (off * 2 + a); do x <- load64 m (4 * a + 2); do out <- store64 out (off * 2 + a) (N.lxor y x);
  do y <- load64 input (off * 3 + a); do x <- load64 m (4 * a + 3); store64 out (off * 3 + a) (N.lxor y x).
Definition ExtrXor4 (m input : bytes) (off : nat) (out : bytes) (a : nat) : res bytes :=
  do (lanes0, lanes1, lanes2, lanes3) <- load_rows m a;
  do lanesL01 <- LOAD256u input a; do lanesH01 <- LOAD256u input (off * 1 + a); do lanesL23 <- LOAD256u input (off * 2 + a); do lanesH23 <- LOAD256u input (off * 3 + a);
  do out <- STORE256u out a (XOR256 lanes0 lanesL01); do out <- STORE256u out (off * 1 + a) (XOR256 lanes1 lanesH01);
  do out <- STORE256u out (off * 2 + a) (XOR256 lanes2 lanesL23); STORE256u out (off * 3 + a) (XOR256 lanes3 lanesH23).
(** KeccakP1600times4_ExtractAndAddLanesAll, KeccakP-1600-times4-SIMD256.c:437-506 *)
Definition xadd_lanes_all (m input out : bytes) (laneCount laneOffset : nat) : res bytes := lanes_all (ExtrXor m input laneOffset) (ExtrXor4 m input laneOffset) out laneCount.

(** while (sizeLeft >= 8) of OverwriteBytes, KeccakP-1600-times4-SIMD256.c:216-222; data is curData *)
Fixpoint over_whole (fuel : nat) (m : bytes) (instance : nat) (data : bytes) (sizeLeft lanePosition : nat) : res (bytes * bytes * nat * nat) :=
  match fuel with
  | O => OutOfFuel
  | S fuel' =>
    if 8 <=? sizeLeft
    then
      do lane <- load64 data 0; do m <- store64 m (lane_index instance lanePosition) lane;
      over_whole fuel' m instance (skipn 8 data) (sizeLeft - 8) (lanePosition + 1)
    else Ok (m, data, sizeLeft, lanePosition)
  end.
(** KeccakP1600times4_OverwriteBytes, KeccakP-1600-times4-SIMD256.c:192-228 *)
Definition over_bytes1 (m : bytes) (instance : nat) (data : bytes) (offset length : nat) : res bytes :=
  let sizeLeft := length in
  let lanePosition := offset / 8 in
  let offsetInLane := offset mod 8 in
  do (m, curData, sizeLeft, lanePosition) <-
    (if (0 <? sizeLeft) && negb (offsetInLane =? 0)
     then
       let bytesInLane := 8 - offsetInLane in
       let bytesInLane := if sizeLeft <? bytesInLane then sizeLeft else bytesInLane in
       do part <- read data 0 bytesInLane;
       do m <- write_at m (8 * lane_index instance lanePosition + offsetInLane) part;
       Ok (m, skipn bytesInLane data, sizeLeft - bytesInLane, lanePosition + 1)
     else Ok (m, data, sizeLeft, lanePosition));
  do (m, curData, sizeLeft, lanePosition) <- over_whole (S sizeLeft) m instance curData sizeLeft lanePosition;
  if 0 <? sizeLeft
  then do part <- read curData 0 sizeLeft; write_at m (8 * lane_index instance lanePosition) part
  else Ok m.
(** while (sizeLeft >= 8) of OverwriteWithZeroes, KeccakP-1600-times4-SIMD256.c:290-294 *)
Fixpoint zero_whole (fuel : nat) (m : bytes) (instance sizeLeft lanePosition : nat) : res (bytes * nat * nat) :=
  match fuel with
  | O => OutOfFuel
  | S fuel' =>
    if 8 <=? sizeLeft
    then do m <- store64 m (lane_index instance lanePosition) 0; zero_whole fuel' m instance (sizeLeft - 8) (lanePosition + 1)
    else Ok (m, sizeLeft, lanePosition)
  end.
(** KeccakP1600times4_OverwriteWithZeroes, KeccakP-1600-times4-SIMD256.c:282-299 *)
Definition zeroes1 (m : bytes) (instance byteCount : nat) : res bytes :=
  do (m, sizeLeft, lanePosition) <- zero_whole (S byteCount) m instance byteCount 0;
  if 0 <? sizeLeft then write_at m (8 * lane_index instance lanePosition) (repeat 0%N sizeLeft) else Ok m.
(** while (sizeLeft >= 8) of ExtractAndAddBytes, KeccakP-1600-times4-SIMD256.c:418-426; input and output are positions in mem *)
Fixpoint xadd_whole (fuel : nat) (m : bytes) (instance : nat) (mem : bytes) (input output sizeLeft lanePosition : nat) : res (bytes * nat * nat * nat * nat) :=
  match fuel with
  | O => OutOfFuel
  | S fuel' =>
    if 8 <=? sizeLeft
    then
      do a <- read mem input 8; do lane <- load64 m (lane_index instance lanePosition);
      do mem <- write_at mem output (le_bytes 8 (N.lxor (le_word a) lane));
      xadd_whole fuel' m instance mem (input + 8) (output + 8) (sizeLeft - 8) (lanePosition + 1)
    else Ok (mem, input, output, sizeLeft, lanePosition)
  end.
(** KeccakP1600times4_ExtractAndAddBytes, KeccakP-1600-times4-SIMD256.c:393-435; the loops over the bytes of a lane, 411-414 and
    430-433, are xadd_in_lane *)
Definition xadd_bytes1 (m : bytes) (instance : nat) (mem : bytes) (input output offset length : nat) : res bytes :=
  let sizeLeft := length in
  let lanePosition := offset / 8 in
  let offsetInLane := offset mod 8 in
  do (mem, input, output, sizeLeft, lanePosition) <-
    (if (0 <? sizeLeft) && negb (offsetInLane =? 0)
     then
       let bytesInLane := 8 - offsetInLane in
       let bytesInLane := if sizeLeft <? bytesInLane then sizeLeft else bytesInLane in
       do mem <- xadd_in_lane m (lane_index instance lanePosition) mem input output offsetInLane bytesInLane;
       Ok (mem, input + bytesInLane, output + bytesInLane, sizeLeft - bytesInLane, lanePosition + 1)
     else Ok (mem, input, output, sizeLeft, lanePosition));
  do (mem, input, output, sizeLeft, lanePosition) <- xadd_whole (S sizeLeft) m instance mem input output sizeLeft lanePosition;
  if negb (sizeLeft =? 0) then xadd_in_lane m (lane_index instance lanePosition) mem input output 0 sizeLeft else Ok mem.

(** rounds12, rounds6, rounds4, avx2/KeccakP-1600-unrolling.macros:45-74 *)
Definition vrounds4 (A : vlanes) : vlanes :=
  let C := prepareTheta A in
  let (E, C) := thetaRhoPiChiIotaPrepareTheta 20 A C in
  let (A, C) := thetaRhoPiChiIotaPrepareTheta 21 E C in
  let (E, C) := thetaRhoPiChiIotaPrepareTheta 22 A C in
  thetaRhoPiChiIota 23 E C.
Definition vrounds6 (A : vlanes) : vlanes :=
  let C := prepareTheta A in
  let (E, C) := thetaRhoPiChiIotaPrepareTheta 18 A C in
  let (A, C) := thetaRhoPiChiIotaPrepareTheta 19 E C in
  let (E, C) := thetaRhoPiChiIotaPrepareTheta 20 A C in
  let (A, C) := thetaRhoPiChiIotaPrepareTheta 21 E C in
  let (E, C) := thetaRhoPiChiIotaPrepareTheta 22 A C in
  thetaRhoPiChiIota 23 E C.
Definition vrounds12 (A : vlanes) : vlanes :=
  let C := prepareTheta A in
  let (E, C) := thetaRhoPiChiIotaPrepareTheta 12 A C in
  let (A, C) := thetaRhoPiChiIotaPrepareTheta 13 E C in
  let (E, C) := thetaRhoPiChiIotaPrepareTheta 14 A C in
  let (A, C) := thetaRhoPiChiIotaPrepareTheta 15 E C in
  let (E, C) := thetaRhoPiChiIotaPrepareTheta 16 A C in
  let (A, C) := thetaRhoPiChiIotaPrepareTheta 17 E C in
  let (E, C) := thetaRhoPiChiIotaPrepareTheta 18 A C in
  let (A, C) := thetaRhoPiChiIotaPrepareTheta 19 E C in
  let (E, C) := thetaRhoPiChiIotaPrepareTheta 20 A C in
  let (A, C) := thetaRhoPiChiIotaPrepareTheta 21 E C in
  let (E, C) := thetaRhoPiChiIotaPrepareTheta 22 A C in
  thetaRhoPiChiIota 23 E C.
(** KeccakP1600times4_PermuteAll_12rounds, _6rounds and _4rounds, KeccakP-1600-times4-SIMD256.c:860-891, by their rounds; the
    alignment as in permute_all *)
Definition permute_all_by (R : vlanes -> vlanes) (m : bytes) : res bytes :=
  if aligned32 (at_states P) && aligned32 (at_rho8 P) && aligned32 (at_rho56 P)
  then do A <- copyFromState m; copyToState m (R A)
  else UB OutOfBounds.

(** a call on the memory of four states: the memory afterwards and what the caller gets *)
Definition simd_step (m : bytes) (c : four_call) : res (bytes * bytes) :=
  let silent r := do m' <- r; Ok (m', []) in
  match c with
  | OnState i (AddByte b off) => silent (add_byte1 m i b off)
  | OnState i (AddBytes d off len) => silent (add_bytes1 m i d off (N.of_nat len))
  | OnState i (OverwriteBytes d off len) => silent (over_bytes1 m i d off len)
  | OnState i (OverwriteWithZeroes n) => silent (zeroes1 m i n)
  | OnState i (ExtractBytes off len) => do o <- extract_bytes1 m i off (N.of_nat len); Ok (m, o)
  | OnState i (ExtractAndAddBytes mem input output off len) => do mem' <- xadd_bytes1 m i mem input output off len; Ok (m, mem')
  | OnState _ _ => UB OutOfBounds
  | AddLanesAll d k off => silent (add_lanes_all m d k off)
  | OverwriteLanesAll d k off => silent (overwrite_lanes_all m d k off)
  | ExtractLanesAll out k off => do o <- extract_lanes_all m out k off; Ok (m, o)
  | ExtractAndAddLanesAll input out k off => do o <- xadd_lanes_all m input out k off; Ok (m, o)
  | PermuteAll_24rounds => silent (permute_all P m)
  | PermuteAll_12rounds => silent (permute_all_by vrounds12 m)
  | PermuteAll_6rounds => silent (permute_all_by vrounds6 m)
  | PermuteAll_4rounds => silent (permute_all_by vrounds4 m)
  end.
Fixpoint simd_steps (m : bytes) (cs : list four_call) : res (list bytes) :=
  match cs with [] => Ok [] | c :: cs' => do (m', o) <- simd_step m c; do os <- simd_steps m' cs'; Ok (o :: os) end.
(** KeccakP1600times4_InitializeAll, then the calls *)
Definition simd_calls (m : bytes) (cs : list four_call) : res (list bytes) := do m' <- init_all m; simd_steps m' cs.
End Simd.

(** ** PlSnP-Fallback.inc *)
(** the loops over the four states that change them: PlSnP_AddLanesAll 101-113, PlSnP_OverwriteLanesAll 124-136; data += laneOffset * 8 *)
Definition opt4_over_states (m : bytes) (g : nat -> bytes -> res bytes) : res bytes := foldM (fun m i => with_state m i (g i)) (seq 0 4) m.
Definition opt4_add_lanes_all (m d : bytes) (laneCount laneOffset : nat) : res bytes :=
  opt4_over_states m (fun i st => opt_add_bytes st (skipn (8 * laneOffset * i) d) 0 (N.of_nat (laneCount * 8))).
Definition opt4_overwrite_lanes_all (m d : bytes) (laneCount laneOffset : nat) : res bytes :=
  opt4_over_states m (fun i st => opt_overwrite st (skipn (8 * laneOffset * i) d) 0 (laneCount * 8)).
(** PlSnP_ExtractLanesAll, PlSnP-Fallback.inc:214-226 *)
Definition opt4_extract_lanes_all (m out : bytes) (laneCount laneOffset : nat) : res bytes :=
  foldM (fun out i => do st <- read m (200 * i) 200; do o <- opt_extract st 0 (N.of_nat (laneCount * 8)); write_at out (8 * laneOffset * i) o) (seq 0 4) out.
(** PlSnP_ExtractAndAddLanesAll, PlSnP-Fallback.inc:237-250; the memory is input followed by output *)
Definition opt4_xadd_lanes_all (m input out : bytes) (laneCount laneOffset : nat) : res bytes :=
  do mem <- foldM (fun mem i => do st <- read m (200 * i) 200; opt_xadd st mem (8 * laneOffset * i) (length input + 8 * laneOffset * i) 0 (laneCount * 8)) (seq 0 4) (input ++ out);
  Ok (skipn (length input) mem).
(** the functions on one state forward to those of KeccakP-1600-opt64.c: PlSnP_AddByte 83-90, PlSnP_AddBytes 92-99,
    PlSnP_OverwriteBytes 115-122, PlSnP_OverwriteWithZeroes 138-145, PlSnP_ExtractBytes 205-212, PlSnP_ExtractAndAddBytes
    228-235; those on all: PlSnP_PermuteAll 147-158, _12rounds 160-173, _6rounds 175-188, _4rounds 190-203 *)
Definition opt4_step (m : bytes) (c : four_call) : res (bytes * bytes) :=
  let silent r := do m' <- r; Ok (m', []) in
  match c with
  | OnState i (AddByte b off) => silent (opt4_add_byte m i b off)
  | OnState i (AddBytes d off len) => silent (opt4_add_bytes m i d off (N.of_nat len))
  | OnState i (OverwriteBytes d off len) => silent (with_state m i (fun st => opt_overwrite st d off len))
  | OnState i (OverwriteWithZeroes n) => silent (with_state m i (fun st => opt_zeroes st n))
  | OnState i (ExtractBytes off len) => do o <- opt4_extract m i off (N.of_nat len); Ok (m, o)
  | OnState i (ExtractAndAddBytes mem input output off len) => do st <- read m (200 * i) 200; do mem' <- opt_xadd st mem input output off len; Ok (m, mem')
  | OnState _ _ => UB OutOfBounds
  | AddLanesAll d k off => silent (opt4_add_lanes_all m d k off)
  | OverwriteLanesAll d k off => silent (opt4_overwrite_lanes_all m d k off)
  | ExtractLanesAll out k off => do o <- opt4_extract_lanes_all m out k off; Ok (m, o)
  | ExtractAndAddLanesAll input out k off => do o <- opt4_xadd_lanes_all m input out k off; Ok (m, o)
  | PermuteAll_24rounds => silent (opt4_permute m)
  | PermuteAll_12rounds => silent (opt4_over_states m (fun _ => opt_permute12))
  | PermuteAll_6rounds => silent (opt4_over_states m (fun _ st => opt_permuteN st 6))
  | PermuteAll_4rounds => silent (opt4_over_states m (fun _ st => opt_permuteN st 4))
  end.
Fixpoint opt4_steps (m : bytes) (cs : list four_call) : res (list bytes) :=
  match cs with [] => Ok [] | c :: cs' => do (m', o) <- opt4_step m c; do os <- opt4_steps m' cs'; Ok (o :: os) end.
Definition opt4_calls (m : bytes) (cs : list four_call) : res (list bytes) := do m' <- opt4_init m; opt4_steps m' cs.
