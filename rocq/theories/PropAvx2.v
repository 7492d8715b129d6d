(** C51: the assembly of keccak/avx2/KeccakP-1600-AVX2.s, which is what is built by default, under the sponge and kdf_shake.h
    computes SHAKE of FIPS 202, whatever the memory of the hash context, the output buffers and the registers held before.
    Specification: KeccakSpec; bits_of: a byte string as the bit string of FIPS 202, B.1.  The machine: X86Model. *)
From Coq Require Import Arith NArith ZArith String List Bool Lia.
From Verif Require Import Prelude SpongeModel SpongeApi KeccakSpec SnpSponge X86Model Avx2Code Avx2Model Avx2Mem Avx2Sim SnpShake.
Import ListNotations.

(** m: the 200 bytes of the state before initialisation; J: what is in the registers, as a function of the state *)
Theorem C51_avx2 : forall J m digest chunks lens, List.length m = 200 -> Forall is_bytes chunks ->
  Forall (fun d => (N.of_nat (List.length d) + 200 <= 2 ^ 32)%N) chunks -> Forall (fun n => (N.of_nat n + 200 <= 2 ^ 32)%N) lens ->
  exists fuel0, forall fuel, fuel0 <= fuel -> exists outs,
    g_hash_run (avx2 J) m fuel digest chunks lens = Ok outs /\ map (@List.length N) outs = lens /\
    bits_of (concat outs) = (if digest =? 32 then SHAKE128 else SHAKE256) (bits_of (concat chunks)) (8 * list_sum lens).
Proof. exact (fun J => snp_shake (avx2 J) 200 rel (avx2_simulates J)). Qed.
Print Assumptions C51_avx2.

(** Every call made with arguments in bounds returns, having accessed nothing but the state, the data and the constants (an
    access elsewhere, a misaligned one and an unbalanced stack are faults of X86Model), with 200 bytes of state, the data as
    it was, and %rbx, the only callee-saved register the code names, as it was. *)
Theorem C51_calls : forall j m, List.length m = 200 /\ is_bytes m ->
  (forall m0 vs vd vc, List.length m0 = 200 -> exists M, call code constants 20 "KeccakP1600_Initialize" (regs j vs vd vc) (ymm j) m0 [] = Ok M /\
    (List.length (mst M) = 200 /\ is_bytes (mst M)) /\ rbx (gp M) = Vi (j_rbx j) /\ mda M = []) /\
  (forall vc b hb off hi, is_byte b -> off < 200 -> exists M, call code constants 20 "KeccakP1600_AddByte" (regs j (Vi (b + 256 * hb)) (Vi (N.of_nat off + 2 ^ 32 * hi)) vc) (ymm j) m [] = Ok M /\
    (List.length (mst M) = 200 /\ is_bytes (mst M)) /\ rbx (gp M) = Vi (j_rbx j) /\ mda M = []) /\
  (forall d off len hi, is_bytes d -> off + len <= 200 -> len <= List.length d ->
    exists M, call code constants 500 "KeccakP1600_AddBytes" (regs j (Vp Bda 0) (Vi (N.of_nat off + 2 ^ 32 * hi)) (Vi (N.of_nat len))) (ymm j) m d = Ok M /\
    (List.length (mst M) = 200 /\ is_bytes (mst M)) /\ rbx (gp M) = Vi (j_rbx j) /\ mda M = d) /\
  (forall buf off len hi, off + len <= 200 -> List.length buf = len ->
    exists M, call code constants 500 "KeccakP1600_ExtractBytes" (regs j (Vp Bda 0) (Vi (N.of_nat off + 2 ^ 32 * hi)) (Vi (N.of_nat len))) (ymm j) m buf = Ok M /\
    mst M = m /\ List.length (mda M) = len /\ rbx (gp M) = Vi (j_rbx j)) /\
  (forall vs vd vc, exists M, call code constants 2800 "KeccakP1600_Permute_24rounds" (regs j vs vd vc) (ymm j) m [] = Ok M /\
    (List.length (mst M) = 200 /\ is_bytes (mst M)) /\ rbx (gp M) = Vi (j_rbx j) /\ mda M = []) /\
  (forall lanes d, is_bytes d -> (N.of_nat (List.length d) < 2 ^ 63)%N -> lanes = 17 \/ lanes = 21 ->
    exists fuel M, call code constants fuel "KeccakF1600_FastLoop_Absorb" (regs j (Vi (N.of_nat lanes)) (Vp Bda 0) (Vi (N.of_nat (List.length d)))) (ymm j) m d = Ok M /\
    (List.length (mst M) = 200 /\ is_bytes (mst M)) /\ rax (gp M) = Vi (N.of_nat (8 * lanes * (List.length d / (8 * lanes)))) /\ rbx (gp M) = Vi (j_rbx j) /\ mda M = d).
Proof. exact calls_safe. Qed.
Print Assumptions C51_calls.

Definition some_junk (m : bytes) : junk :=
  mkJunk 1 2 (3 + le_word (firstn 4 m)) 4 5 6 7 8 (fun k => V4 (N.of_nat k) 9 (le_word (firstn 8 m)) 10) 77 (nth 3 m 0%N) (fun i => N.of_nat (i mod 256)).
(** SHAKE128 and SHAKE256 of the empty string over memory full of 0xA5 *)
Example C51_case :
  g_hash_run (avx2 some_junk) (repeat 0xA5%N 200) 100 32 [] [5; 11] =
    Ok [[0x7F; 0x9C; 0x2B; 0xA4; 0xE8]%N; [0x8F; 0x82; 0x7D; 0x61; 0x60; 0x45; 0x50; 0x76; 0x05; 0x85; 0x3E]%N] /\
  g_hash_run (avx2 some_junk) (repeat 0xA5%N 200) 100 64 [[]] [16] =
    Ok [[0x46; 0xB9; 0xDD; 0x2B; 0x0B; 0xA8; 0x8D; 0x13; 0x23; 0x3B; 0x3F; 0xEB; 0x74; 0x3E; 0xEB; 0x24]%N].
Proof. split; vm_compute; reflexivity. Qed.

(** The ABI leaves the upper half of the register of an unsigned int open.  The code masks it for offset, but not for length:
    with length 1 and a bit set above, AddBytes goes on past the end of the data. *)
Theorem C51_length_refuted : exists j m d, List.length m = 200 /\ List.length d = 1 /\
  call code constants 500 "KeccakP1600_AddBytes" (regs j (Vp Bda 0) (Vi 0) (Vi (1 + 2 ^ 32 * 1))) (ymm j) m d = UB OutOfBounds.
Proof. exists (some_junk []), (repeat 0%N 200), [7%N]. split; [reflexivity|]. split; [reflexivity|]. vm_compute. reflexivity. Qed.
Print Assumptions C51_length_refuted.
