(** The functions on Keccak states of the two implementations, as a caller sees them.  AVX2: each call puts the arguments in
    the registers of the System V ABI and runs the code of Avx2Code on the machine of X86Model, as in Avx2Model; unsigned
    arguments other than offset are taken to be zero-extended to 64 bits.  opt64: Opt64Model, Opt64More. *)
From Coq Require Import Arith NArith ZArith String List Bool.
From Verif Require Import Prelude SpongeModel X86Model Avx2Code Avx2Model Opt64Model Opt64More StateSpec.
Import ListNotations.

Section Asm.
Variable J : bytes -> junk.
(** KeccakP1600_OverwriteBytes, KeccakP-1600-AVX2.s:162-211 *)
Definition asm_overwrite (m d : bytes) (off len : nat) : res bytes :=
  let j := J m in
  do M <- call code constants 500 "KeccakP1600_OverwriteBytes" (regs j (Vp Bda 0) (Vi (N.of_nat off + 2 ^ 32 * j_half j)) (Vi (N.of_nat len))) (ymm j) m d; Ok (mst M).
(** KeccakP1600_OverwriteWithZeroes, KeccakP-1600-AVX2.s:231-256 *)
Definition asm_zeroes (m : bytes) (n : nat) : res bytes :=
  let j := J m in
  do M <- call code constants 350 "KeccakP1600_OverwriteWithZeroes" (regs j (Vi (N.of_nat n)) (Vi (j_rdx j)) (Vi (j_rcx j))) (ymm j) m []; Ok (mst M).
(** KeccakP1600_Permute_12rounds, KeccakP-1600-AVX2.s:617-641 *)
Definition asm_permute12 (m : bytes) : res bytes :=
  let j := J m in
  do M <- call code constants 2800 "KeccakP1600_Permute_12rounds" (regs j (Vi (j_rsi j)) (Vi (j_rdx j)) (Vi (j_rcx j))) (ymm j) m []; Ok (mst M).
(** KeccakP1600_Permute_Nrounds, KeccakP-1600-AVX2.s:656-682 *)
Definition asm_permuteN (fuel : nat) (m : bytes) (nr : N) : res bytes :=
  let j := J m in
  do M <- call code constants fuel "KeccakP1600_Permute_Nrounds" (regs j (Vi nr) (Vi (j_rdx j)) (Vi (j_rcx j))) (ymm j) m []; Ok (mst M).
(** KeccakP1600_ExtractAndAddBytes, KeccakP-1600-AVX2.s:348-408; input and output are positions in one memory mem; the result
    is that memory and the state *)
Definition asm_xadd (m mem : bytes) (input output off len : nat) : res (bytes * bytes) :=
  let j := J m in
  do M <- call code constants 750 "KeccakP1600_ExtractAndAddBytes"
    (mkG (Vi (j_rax j)) (Vi (j_rbx j)) (Vi (N.of_nat off + 2 ^ 32 * j_half j)) (Vp Bda (Z.of_nat output)) (Vp Bda (Z.of_nat input)) (Vp Bst 0) (Vi (N.of_nat len)) (Vi (j_r9 j)) (Vi (j_r10 j)))
    (ymm j) m mem; Ok (mst M, mda M).
(** KeccakF1600_FastLoop_Absorb, KeccakP-1600-AVX2.s:702-868, and KeccakP1600_12rounds_FastLoop_Absorb, 885-1051, by name;
    fuel: how many blocks, and one more *)
Definition asm_absorb (name : string) (fuel : nat) (m : bytes) (laneCount : nat) (d : bytes) : res (bytes * bytes) :=
  let j := J m in
  do M <- call code constants (3000 * fuel + 100) name (regs j (Vi (N.of_nat laneCount)) (Vp Bda 0) (Vi (N.of_nat (List.length d)))) (ymm j) m d;
  match rax (gp M) with Vi n => Ok (mst M, [n]) | Vp _ _ => UB OutOfBounds end.
(** a call on the memory of a state: the memory afterwards and what the caller gets *)
Definition avx2_step (m : bytes) (c : state_call) : res (bytes * bytes) :=
  let silent r := do m' <- r; Ok (m', []) in
  match c with
  | AddByte b off => silent (asm_add_byte J m b off)
  | AddBytes d off len => silent (asm_add_bytes J m d off (N.of_nat len))
  | OverwriteBytes d off len => silent (asm_overwrite m d off len)
  | OverwriteWithZeroes n => silent (asm_zeroes m n)
  | Permute_24rounds => silent (asm_permute J m)
  | Permute_12rounds => silent (asm_permute12 m)
  | Permute_Nrounds nr => silent (asm_permuteN 2800 m (N.of_nat nr))
  | ExtractBytes off len => do o <- asm_extract J m off (N.of_nat len); Ok (m, o)
  | ExtractAndAddBytes mem input output off len => asm_xadd m mem input output off len
  | FastLoop_Absorb k d => asm_absorb "KeccakF1600_FastLoop_Absorb" (S (List.length d / (8 * k))) m k d
  | FastLoop_Absorb_12rounds k d => asm_absorb "KeccakP1600_12rounds_FastLoop_Absorb" (S (List.length d / (8 * k))) m k d
  end.
Fixpoint avx2_steps (m : bytes) (cs : list state_call) : res (list bytes) :=
  match cs with [] => Ok [] | c :: cs' => do (m', o) <- avx2_step m c; do os <- avx2_steps m' cs'; Ok (o :: os) end.
(** KeccakP1600_Initialize and then the calls; m: the memory of the state before *)
Definition avx2_calls (m : bytes) (cs : list state_call) : res (list bytes) := do m' <- asm_init J m; avx2_steps m' cs.
End Asm.

(** the same with opt64 *)
Definition opt64_step (m : bytes) (c : state_call) : res (bytes * bytes) :=
  let silent r := do m' <- r; Ok (m', []) in
  match c with
  | AddByte b off => silent (opt_add_byte m b off)
  | AddBytes d off len => silent (opt_add_bytes m d off (N.of_nat len))
  | OverwriteBytes d off len => silent (opt_overwrite m d off len)
  | OverwriteWithZeroes n => silent (opt_zeroes m n)
  | Permute_24rounds => silent (opt_permute m)
  | Permute_12rounds => silent (opt_permute12 m)
  | Permute_Nrounds nr => silent (opt_permuteN m (N.of_nat nr))
  | ExtractBytes off len => do o <- opt_extract m off (N.of_nat len); Ok (m, o)
  | ExtractAndAddBytes mem input output off len => do mem' <- opt_xadd m mem input output off len; Ok (m, mem')
  | FastLoop_Absorb k d => do (m', n) <- opt_fast (S (List.length d / (8 * k))) m k d; Ok (m', [N.of_nat n])
  | FastLoop_Absorb_12rounds k d => do (m', n) <- opt_fast12 (S (List.length d / (8 * k))) m k d; Ok (m', [N.of_nat n])
  end.
Fixpoint opt64_steps (m : bytes) (cs : list state_call) : res (list bytes) :=
  match cs with [] => Ok [] | c :: cs' => do (m', o) <- opt64_step m c; do os <- opt64_steps m' cs'; Ok (o :: os) end.
Definition opt64_calls (m : bytes) (cs : list state_call) : res (list bytes) := do m' <- opt_init m; opt64_steps m' cs.
