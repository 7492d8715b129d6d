(** Model of KeccakP1600times4_KravatteCompress of keccak/avx2/KeccakP-1600-times4-SIMD256.c.  xAccu and kRoll, arrays of uint64_t,
    are lists of words; input, read through a uint64_t pointer, is a list of bytes.  xAccu, kRoll and input are taken to be
    different objects.  UseGatherScatter is not defined (line 45 is a comment). *)
From Coq Require Import Arith NArith List Bool.
From Verif Require Import Prelude SpongeModel SnpMem SnpSponge X86Model Simd256Model FourModel.
Import ListNotations.

(** m[a] of an array of words; m[a] = v *)
Definition word_at (m : list N) (a : nat) : res N := match nth_error m a with Some x => Ok x | None => UB OutOfBounds end.
Definition set_word (m : list N) (a : nat) (v : N) : res (list N) := if a <? length m then Ok (firstn a m ++ v :: skipn (a + 1) m) else UB OutOfBounds.
(** LOAD256, LOAD256u, STORE256 at m[a]; lines 54, 55, 66 *)
Definition wload (m : list N) (a : nat) : res V256 := do x0 <- word_at m a; do x1 <- word_at m (a + 1); do x2 <- word_at m (a + 2); do x3 <- word_at m (a + 3); Ok (V4 x0 x1 x2 x3).
Definition wstore (m : list N) (a : nat) (v : V256) : res (list N) := do m <- set_word m a (w0 v); do m <- set_word m (a + 1) (w1 v); do m <- set_word m (a + 2) (w2 v); set_word m (a + 3) (w3 v).
(** _mm256_permute4x64_epi64(a, c): word j of the result is the word of a that bits 2j, 2j + 1 of c say *)
Definition permute4x64 (a : V256) (c : N) : V256 :=
  let w j := nth (N.to_nat ((c / 4 ^ j) mod 4)) [w0 a; w1 a; w2 a; w3 a] 0%N in V4 (w 0%N) (w 1%N) (w 2%N) (w 3%N).
(** _mm256_blend_epi32(a, b, c): half j of 32 bits is that of b where bit j of c is set, else that of a *)
Definition blend_word (x y : N) (lo hi : bool) : N :=
  match lo, hi with
  | false, false => x
  | true, true => y
  | true, false => (y mod 2 ^ 32 + 2 ^ 32 * (x / 2 ^ 32))%N
  | false, true => (x mod 2 ^ 32 + 2 ^ 32 * (y / 2 ^ 32))%N
  end.
Definition blend_epi32 (a b : V256) (c : N) : V256 :=
  V4 (blend_word (w0 a) (w0 b) (N.testbit c 0) (N.testbit c 1)) (blend_word (w1 a) (w1 b) (N.testbit c 2) (N.testbit c 3))
     (blend_word (w2 a) (w2 b) (N.testbit c 4) (N.testbit c 5)) (blend_word (w3 a) (w3 b) (N.testbit c 6) (N.testbit c 7)).
(** Kravatte_Rollc, lines 1182-1190: Asa, Ase, Asi, Aso, Asu and the new x0x1x2x3, x1x2x3x4 *)
Definition Kravatte_Rollc (x0x1x2x3 x1x2x3x4 : V256) : V256 * V256 * V256 * V256 * V256 * V256 * V256 :=
  let Asa := x0x1x2x3 in let Ase := x1x2x3x4 in
  let x1x2x3x4 := ROL64in256 x0x1x2x3 7 in
  let x1x2x3x4 := XOR256 x1x2x3x4 Ase in
  let x1x2x3x4 := XOR256 x1x2x3x4 (srli_epi64 Ase 3) in
  let Asi := blend_epi32 (permute4x64 Ase 0x39) (permute4x64 x1x2x3x4 0x39) 0xC0 in
  let Aso := PERM128 Ase x1x2x3x4 0x21 in
  let Asu := blend_epi32 (permute4x64 Ase 0xFF) (permute4x64 x1x2x3x4 0x90) 0xFC in
  (Asa, Ase, Asi, Aso, Asu, Asu, x1x2x3x4).
(** AddOverWr4, lines 1158-1167 *)
Definition AddOverWr4 (key : list N) (inp : bytes) (a : nat) : res (V256 * V256 * V256 * V256) :=
  do lanes0 <- LOAD256u inp (a + 0 * 25); do lanes1 <- LOAD256u inp (a + 1 * 25); do lanes2 <- LOAD256u inp (a + 2 * 25); do lanes3 <- LOAD256u inp (a + 3 * 25);
  let '(lanes0, lanes1, lanes2, lanes3) := INTLEAVE lanes0 lanes1 lanes2 lanes3 in
  do k0 <- word_at key (a + 0); do k1 <- word_at key (a + 1); do k2 <- word_at key (a + 2); do k3 <- word_at key (a + 3);
  Ok (XOR256 lanes0 (CONST256_64 k0), XOR256 lanes1 (CONST256_64 k1), XOR256 lanes2 (CONST256_64 k2), XOR256 lanes3 (CONST256_64 k3)).
(** LoadXOReq256, lines 1134-1136 *)
Definition LoadXOReq256 (lanes : V256) (inp : bytes) (a : nat) : res V256 := do v <- LOAD4_64 inp 25 a; Ok (XOR256 lanes v).
(** ExtrAccu, ExtrAccu4, lines 1171-1180 *)
Definition ExtrAccu (lanes : V256) (p : list N) (a : nat) : res (list N) :=
  do x <- word_at p a; set_word p a (N.lxor x (N.lxor (N.lxor (N.lxor (w0 lanes) (w1 lanes)) (w2 lanes)) (w3 lanes))).
Definition ExtrAccu4 (lanes0 lanes1 lanes2 lanes3 : V256) (p : list N) (a : nat) : res (list N) :=
  let '(lanes0, lanes1, lanes2, lanes3) := UNINTLEAVE lanes0 lanes1 lanes2 lanes3 in
  let lanes0 := XOR256 lanes0 lanes1 in let lanes2 := XOR256 lanes2 lanes3 in
  do lanes1 <- wload p a;
  let lanes0 := XOR256 lanes0 lanes2 in let lanes0 := XOR256 lanes0 lanes1 in
  wstore p a lanes0.
(** the body of the loop, lines 1211-1229; in64 is the input from there on *)
Definition krav_load (kRoll : list N) (in64 : bytes) (x0x1x2x3 x1x2x3x4 : V256) : res (vlanes * V256 * V256) :=
  do (Aba, Abe, Abi, Abo) <- AddOverWr4 kRoll in64 0;
  do (Abu, Aga, Age, Agi) <- AddOverWr4 kRoll in64 4;
  do (Ago, Agu, Aka, Ake) <- AddOverWr4 kRoll in64 8;
  do (Aki, Ako, Aku, Ama) <- AddOverWr4 kRoll in64 12;
  do (Ame, Ami, Amo, Amu) <- AddOverWr4 kRoll in64 16;
  let '(Asa, Ase, Asi, Aso, Asu, x0x1x2x3, x1x2x3x4) := Kravatte_Rollc x0x1x2x3 x1x2x3x4 in
  do Asa <- LoadXOReq256 Asa in64 20; do Ase <- LoadXOReq256 Ase in64 21; do Asi <- LoadXOReq256 Asi in64 22;
  do Aso <- LoadXOReq256 Aso in64 23; do Asu <- LoadXOReq256 Asu in64 24;
  Ok (mkV Aba Abe Abi Abo Abu Aga Age Agi Ago Agu Aka Ake Aki Ako Aku Ama Ame Ami Amo Amu Asa Ase Asi Aso Asu, x0x1x2x3, x1x2x3x4).
Definition krav_accu (A : vlanes) (xAccu : list N) : res (list N) :=
  let '(mkV Aba Abe Abi Abo Abu Aga Age Agi Ago Agu Aka Ake Aki Ako Aku Ama Ame Ami Amo Amu Asa Ase Asi Aso Asu) := A in
  do xAccu <- ExtrAccu4 Aba Abe Abi Abo xAccu 0; do xAccu <- ExtrAccu4 Abu Aga Age Agi xAccu 4;
  do xAccu <- ExtrAccu4 Ago Agu Aka Ake xAccu 8; do xAccu <- ExtrAccu4 Aki Ako Aku Ama xAccu 12;
  do xAccu <- ExtrAccu4 Ame Ami Amo Amu xAccu 16; do xAccu <- ExtrAccu4 Asa Ase Asi Aso xAccu 20;
  ExtrAccu Asu xAccu 24.
(** do { ... } while (--nBlocks != 0), lines 1210-1230; nBlocks is a size_t, p the bytes in64 has advanced *)
Fixpoint krav_loop (fuel : nat) (kRoll : list N) (input : bytes) (xAccu : list N) (x0x1x2x3 x1x2x3x4 : V256) (p : nat) (nBlocks : N) : res (list N * V256 * V256 * nat) :=
  match fuel with
  | O => OutOfFuel
  | S fuel' =>
    do (A, x0x1x2x3, x1x2x3x4) <- krav_load kRoll (skipn p input) x0x1x2x3 x1x2x3x4;
    do xAccu <- krav_accu (vrounds6 A) xAccu;
    let nBlocks := ((nBlocks + 2 ^ 64 - 1) mod 2 ^ 64)%N in
    if (nBlocks =? 0)%N then Ok (xAccu, x0x1x2x3, x1x2x3x4, p + 4 * 25 * 8)
    else krav_loop fuel' kRoll input xAccu x0x1x2x3 x1x2x3x4 (p + 4 * 25 * 8) nBlocks
  end.
(** KeccakP1600times4_KravatteCompress, lines 1192-1235: xAccu and kRoll afterwards, and the value returned.  The accesses with
    LOAD256 and STORE256 are undefined unless the arrays, and the tables of the rotations, are aligned. *)
Definition KravatteCompress (at_accu at_roll at_rho8 at_rho56 : N) (xAccu kRoll : list N) (input : bytes) : res (list N * list N * nat) :=
  if aligned32 at_accu && aligned32 at_roll && aligned32 at_rho8 && aligned32 at_rho56
  then
    do x0x1x2x3 <- wload kRoll 20; do x1x2x3x4 <- wload kRoll 21;
    do (xAccu, x0x1x2x3, x1x2x3x4, p) <- krav_loop (S (length input)) kRoll input xAccu x0x1x2x3 x1x2x3x4 0 (N.of_nat (length input) / (4 * 200))%N;
    do kRoll <- wstore kRoll 20 x0x1x2x3; do kRoll <- set_word kRoll 24 (w3 x1x2x3x4);
    Ok (xAccu, kRoll, p)
  else UB OutOfBounds.
