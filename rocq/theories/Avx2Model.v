(** The functions of keccak/avx2/KeccakP-1600-AVX2.s as SnP operations: each call puts the arguments in the registers of the
    System V ABI and runs the code of Avx2Code on the machine of X86Model.  Declarations: avx2/KeccakP-1600-SnP.h:32-45. *)
From Coq Require Import Arith NArith ZArith String List Bool Lia.
From Verif Require Import Prelude SpongeModel SnpSponge X86Model Avx2Code.
Import ListNotations.

(** what a call finds in the registers that hold no argument, in the sixteen ymm registers, in the bits of %rsi above the
    byte data and in the upper half of the register of offset - both left open by the ABI - and in the output buffer *)
Record junk : Type := mkJunk { j_rax : N; j_rbx : N; j_rcx : N; j_rdx : N; j_rsi : N; j_r8 : N; j_r9 : N; j_r10 : N;
  j_ymm : nat -> v4; j_byte : N; j_half : N; j_buf : nat -> N }.
Definition ymm (j : junk) : list v4 := map (j_ymm j) (seq 0 16).
Definition regs (j : junk) (rsi rdx rcx : val) : gprs := mkG (Vi (j_rax j)) (Vi (j_rbx j)) rcx rdx rsi (Vp Bst 0) (Vi (j_r8 j)) (Vi (j_r9 j)) (Vi (j_r10 j)).

Section Asm.
(** the junk may be another one at every call: it is given as a function of the memory of the state *)
Variable J : bytes -> junk.

(** KeccakP1600_Initialize, KeccakP-1600-AVX2.s:33-43 *)
Definition asm_init (m : bytes) : res bytes :=
  let j := J m in
  do M <- call code constants 20 "KeccakP1600_Initialize" (regs j (Vi (j_rsi j)) (Vi (j_rdx j)) (Vi (j_rcx j))) (ymm j) m []; Ok (mst M).
(** KeccakP1600_AddByte, KeccakP-1600-AVX2.s:63-73 *)
Definition asm_add_byte (m : bytes) (b : N) (off : nat) : res bytes :=
  let j := J m in
  do M <- call code constants 20 "KeccakP1600_AddByte" (regs j (Vi (b + 256 * j_byte j)) (Vi (N.of_nat off + 2 ^ 32 * j_half j)) (Vi (j_rcx j))) (ymm j) m []; Ok (mst M).
(** KeccakP1600_AddBytes, KeccakP-1600-AVX2.s:93-142; length is taken to be zero-extended to 64 bits, which compilers do but the ABI does not demand *)
Definition asm_add_bytes (m d : bytes) (off : nat) (len : N) : res bytes :=
  let j := J m in
  do M <- call code constants 500 "KeccakP1600_AddBytes" (regs j (Vp Bda 0) (Vi (N.of_nat off + 2 ^ 32 * j_half j)) (Vi len)) (ymm j) m d; Ok (mst M).
(** KeccakP1600_ExtractBytes, KeccakP-1600-AVX2.s:276-328; length as above *)
Definition asm_extract (m : bytes) (off : nat) (len : N) : res bytes :=
  let j := J m in
  do M <- call code constants 500 "KeccakP1600_ExtractBytes" (regs j (Vp Bda 0) (Vi (N.of_nat off + 2 ^ 32 * j_half j)) (Vi len)) (ymm j) m (map (j_buf j) (seq 0 (N.to_nat len))); Ok (mda M).
(** KeccakP1600_Permute_24rounds, KeccakP-1600-AVX2.s:578-602 *)
Definition asm_permute (m : bytes) : res bytes :=
  let j := J m in
  do M <- call code constants 2800 "KeccakP1600_Permute_24rounds" (regs j (Vi (j_rsi j)) (Vi (j_rdx j)) (Vi (j_rcx j))) (ymm j) m []; Ok (mst M).
(** KeccakF1600_FastLoop_Absorb, KeccakP-1600-AVX2.s:702-868; laneCount is taken to be zero-extended to 64 bits *)
Definition asm_fast (fuel : nat) (m : bytes) (laneCount : nat) (d : bytes) : res (bytes * nat) :=
  let j := J m in
  do M <- call code constants (2660 * fuel + 100) "KeccakF1600_FastLoop_Absorb" (regs j (Vi (N.of_nat laneCount)) (Vp Bda 0) (Vi (N.of_nat (List.length d)))) (ymm j) m d;
  match rax (gp M) with Vi n => Ok (mst M, N.to_nat n) | Vp _ _ => UB OutOfBounds end.
Definition avx2 : snp := mkSnp asm_init asm_add_byte asm_add_bytes asm_extract asm_permute asm_fast.
End Asm.
