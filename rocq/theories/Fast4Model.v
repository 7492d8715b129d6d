(** Model of the absorbing loops of keccak/avx2/KeccakP-1600-times4-SIMD256.c.  As in FourModel, laneOffsetParallel * 3 * 8 and
    laneOffsetSerial * 8 are taken to be below 2^32.  data is the caller's buffer, p the number of bytes the pointers have advanced. *)
From Coq Require Import Arith NArith List Bool.
From Verif Require Import Prelude SpongeModel SnpMem SnpSponge X86Model Simd256Model StateSpec FourSpec FourModel Fast4Spec.
Import ListNotations.

(** while (dataByteLen >= (laneOffsetParallel * 3 + laneCount) * 8), lines 954-987, 993-999, 1064-1097, 1103-1109: dataByteLen is a size_t *)
Fixpoint fast_loop {U : Type} (body : U -> nat -> res U) (laneCount laneOffsetParallel laneOffsetSerial : nat) (fuel : nat) (s : U) (p : nat) (dataByteLen : N) : res (U * nat) :=
  match fuel with
  | O => OutOfFuel
  | S fuel' =>
    if (N.of_nat ((laneOffsetParallel * 3 + laneCount) * 8) <=? dataByteLen)%N
    then
      do s <- body s p;
      fast_loop body laneCount laneOffsetParallel laneOffsetSerial fuel' s (p + laneOffsetSerial * 8) ((dataByteLen + 2 ^ 64 - N.of_nat (laneOffsetSerial * 8)) mod 2 ^ 64)
    else Ok (s, p)
  end.
(** XOR_In(Aba, 0) to XOR_In(Asa, 20), lines 959-979 and 1069-1089; d is the data from curData0 on *)
Definition xor_in21 (d : bytes) (par : nat) (A : vlanes) : res vlanes :=
  do x0 <- LOAD4_64 d par 0; do x1 <- LOAD4_64 d par 1; do x2 <- LOAD4_64 d par 2; do x3 <- LOAD4_64 d par 3; do x4 <- LOAD4_64 d par 4;
  do x5 <- LOAD4_64 d par 5; do x6 <- LOAD4_64 d par 6; do x7 <- LOAD4_64 d par 7; do x8 <- LOAD4_64 d par 8; do x9 <- LOAD4_64 d par 9;
  do x10 <- LOAD4_64 d par 10; do x11 <- LOAD4_64 d par 11; do x12 <- LOAD4_64 d par 12; do x13 <- LOAD4_64 d par 13; do x14 <- LOAD4_64 d par 14;
  do x15 <- LOAD4_64 d par 15; do x16 <- LOAD4_64 d par 16; do x17 <- LOAD4_64 d par 17; do x18 <- LOAD4_64 d par 18; do x19 <- LOAD4_64 d par 19;
  do x20 <- LOAD4_64 d par 20;
  Ok (mkV (XOR256 (v_ba A) x0) (XOR256 (v_be A) x1) (XOR256 (v_bi A) x2) (XOR256 (v_bo A) x3) (XOR256 (v_bu A) x4)
    (XOR256 (v_ga A) x5) (XOR256 (v_ge A) x6) (XOR256 (v_gi A) x7) (XOR256 (v_go A) x8) (XOR256 (v_gu A) x9)
    (XOR256 (v_ka A) x10) (XOR256 (v_ke A) x11) (XOR256 (v_ki A) x12) (XOR256 (v_ko A) x13) (XOR256 (v_ku A) x14)
    (XOR256 (v_ma A) x15) (XOR256 (v_me A) x16) (XOR256 (v_mi A) x17) (XOR256 (v_mo A) x18) (XOR256 (v_mu A) x19)
    (XOR256 (v_sa A) x20) (v_se A) (v_si A) (v_so A) (v_su A)).
Section Loops.
Variable P : place.
(** KeccakF1600times4_FastLoop_Absorb, KeccakP-1600-times4-SIMD256.c:893-1002, and KeccakP1600times4_12rounds_FastLoop_Absorb,
    1004-1112, by their rounds (R, in registers) and permutation (perm, of the states in memory).  The alignment as in permute_all. *)
Definition fast_absorb (R : vlanes -> vlanes) (perm : bytes -> res bytes) (fuel : nat) (m : bytes) (laneCount laneOffsetParallel laneOffsetSerial : nat) (data : bytes) : res (bytes * nat) :=
  let len := N.of_nat (length data) in
  if laneCount =? 21
  then
    if aligned32 (at_states P) && aligned32 (at_rho8 P) && aligned32 (at_rho56 P)
    then
      do A <- copyFromState m;
      do (A, p) <- fast_loop (fun A p => do A <- xor_in21 (skipn p data) laneOffsetParallel A; Ok (R A)) laneCount laneOffsetParallel laneOffsetSerial fuel A 0 len;
      do m <- copyToState m A; Ok (m, p)
    else UB OutOfBounds
  else fast_loop (fun m p => do m <- add_lanes_all P m (skipn p data) laneCount laneOffsetParallel; perm m) laneCount laneOffsetParallel laneOffsetSerial fuel m 0 len.
Definition fast_absorb24 := fast_absorb rounds24 (permute_all P).
Definition fast_absorb12 := fast_absorb vrounds12 (permute_all_by P vrounds12).
Definition fast4_step (m : bytes) (c : fast_call) : res (bytes * bytes) :=
  match c with
  | Plain c => simd_step P m c
  | FastLoop k par ser d => do (m', n) <- fast_absorb24 (S (length d)) m k par ser d; Ok (m', [N.of_nat n])
  | FastLoop_12rounds k par ser d => do (m', n) <- fast_absorb12 (S (length d)) m k par ser d; Ok (m', [N.of_nat n])
  end.
Fixpoint fast4_steps (m : bytes) (cs : list fast_call) : res (list bytes) :=
  match cs with [] => Ok [] | c :: cs' => do (m', o) <- fast4_step m c; do os <- fast4_steps m' cs'; Ok (o :: os) end.
(** KeccakP1600times4_InitializeAll, then the calls *)
Definition fast4_calls (m : bytes) (cs : list fast_call) : res (list bytes) := do m' <- init_all m; fast4_steps m' cs.
End Loops.
