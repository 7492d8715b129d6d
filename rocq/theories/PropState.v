(** C80: the functions on a Keccak state, including the absorbing loops, that keccak/avx2/KeccakP-1600-AVX2.s and keccak/opt64/KeccakP-1600-opt64.c offer, in
    any order and with any arguments within bounds.  Specification: StateSpec (put, xor_with, part, keccak_p). *)
From Coq Require Import Arith NArith ZArith String List Bool Lia.
From Verif Require Import Prelude SpongeModel KeccakSpec X86Model Avx2Code Avx2Model Opt64Model Opt64More Opt64MoreFacts StateSpec StateModel StateFacts PropAvx2.
Import ListNotations.

(** The assembly: whatever the registers and the memory of the state held before, every sequence of calls gives the caller what
    the same calls on an array of 200 bytes would. *)
Theorem C80_avx2 : forall J m cs, List.length m = 200 -> Forall call_ok cs -> avx2_calls J m cs = Ok (state_run cs).
Proof. exact avx2_calls_ok. Qed.
Print Assumptions C80_avx2.
(** The C code: the same, if no call extracts all 200 bytes at once. *)
Theorem C80_opt64 : forall m cs, List.length m = 200 -> Forall call_ok cs ->
  Forall (fun c => match c with ExtractBytes off len | ExtractAndAddBytes _ _ _ off len => off = 0 -> len < 200 | _ => True end) cs ->
  opt64_calls m cs = Ok (state_run cs).
Proof. exact opt64_calls_ok. Qed.
Print Assumptions C80_opt64.
(** Hence a caller cannot tell the two apart. *)
Theorem C80_same : forall J m m' cs, List.length m = 200 -> List.length m' = 200 -> Forall call_ok cs ->
  Forall (fun c => match c with ExtractBytes off len | ExtractAndAddBytes _ _ _ off len => off = 0 -> len < 200 | _ => True end) cs ->
  avx2_calls J m cs = opt64_calls m' cs.
Proof. intros J m m' cs L L' H N. rewrite (avx2_calls_ok J m cs L H), (opt64_calls_ok m' cs L' H N). reflexivity. Qed.
Print Assumptions C80_same.
(** Each call of the assembly not covered by C51 leaves the callee-saved register %rbx, and the caller's data but for the
    output, as they were. *)
Theorem C80_calls : forall j m, List.length m = 200 /\ is_bytes m ->
  (forall d off len hi, is_bytes d -> off + len <= 200 -> len <= List.length d ->
    exists M, call code constants 500 "KeccakP1600_OverwriteBytes" (regs j (Vp Bda 0) (Vi (N.of_nat off + 2 ^ 32 * hi)) (Vi (N.of_nat len))) (ymm j) m d = Ok M /\
    List.length (mst M) = 200 /\ rbx (gp M) = Vi (j_rbx j) /\ mda M = d) /\
  (forall vd vc n d, n <= 200 -> exists M, call code constants 350 "KeccakP1600_OverwriteWithZeroes" (regs j (Vi (N.of_nat n)) vd vc) (ymm j) m d = Ok M /\
    List.length (mst M) = 200 /\ rbx (gp M) = Vi (j_rbx j) /\ mda M = d) /\
  (forall vs vd vc d, exists M, call code constants 2800 "KeccakP1600_Permute_12rounds" (regs j vs vd vc) (ymm j) m d = Ok M /\
    List.length (mst M) = 200 /\ rbx (gp M) = Vi (j_rbx j) /\ mda M = d) /\
  (forall n vd vc d, 0 < n <= 24 -> exists M, call code constants 2800 "KeccakP1600_Permute_Nrounds" (regs j (Vi (N.of_nat n)) vd vc) (ymm j) m d = Ok M /\
    List.length (mst M) = 200 /\ rbx (gp M) = Vi (j_rbx j) /\ mda M = d) /\
  (forall k d, is_bytes d -> (N.of_nat (List.length d) < 2 ^ 63)%N -> 1 <= k <= 25 ->
    exists fuel M, call code constants fuel "KeccakF1600_FastLoop_Absorb" (regs j (Vi (N.of_nat k)) (Vp Bda 0) (Vi (N.of_nat (List.length d)))) (ymm j) m d = Ok M /\
    List.length (mst M) = 200 /\ rbx (gp M) = Vi (j_rbx j) /\ mda M = d) /\
  (forall k d, is_bytes d -> (N.of_nat (List.length d) < 2 ^ 63)%N -> 1 <= k <= 25 ->
    exists fuel M, call code constants fuel "KeccakP1600_12rounds_FastLoop_Absorb" (regs j (Vi (N.of_nat k)) (Vp Bda 0) (Vi (N.of_nat (List.length d)))) (ymm j) m d = Ok M /\
    List.length (mst M) = 200 /\ rbx (gp M) = Vi (j_rbx j) /\ mda M = d) /\
  (forall d off len hi p q, is_bytes d -> off + len <= 200 -> p + len <= List.length d -> q + len <= List.length d -> q <= p \/ p + len <= q ->
    exists M, call code constants 750 "KeccakP1600_ExtractAndAddBytes" (mkG (Vi (j_rax j)) (Vi (j_rbx j)) (Vi (N.of_nat off + 2 ^ 32 * hi)) (Vp Bda (Z.of_nat q)) (Vp Bda (Z.of_nat p)) (Vp Bst 0) (Vi (N.of_nat len)) (Vi (j_r9 j)) (Vi (j_r10 j))) (ymm j) m d = Ok M /\
    mst M = m /\ rbx (gp M) = Vi (j_rbx j) /\ List.length (mda M) = List.length d /\ firstn q (mda M) = firstn q d /\ skipn (q + len) (mda M) = skipn (q + len) d).
Proof. exact more_calls_safe. Qed.
Print Assumptions C80_calls.

(** Where the two differ.  No rounds: the C code leaves every state as it is, the assembly takes what follows the round
    constants for one, and goes on until it runs out of the memory of the constants. *)
Theorem C80_no_rounds_refuted : (forall m, List.length m = 200 -> is_bytes m -> opt_permuteN m 0 = Ok m) /\
  exists J m, List.length m = 200 /\ is_bytes m /\ asm_permuteN J 4900 m 0 = UB OutOfBounds.
Proof. exact no_rounds. Qed.
Print Assumptions C80_no_rounds_refuted.
(** More than 24 rounds: with an odd number the C code reads beyond its round constants; with an even one it does no round at
    all.  The assembly does 25 rounds with a rotation amount for a round constant. *)
Theorem C80_many_rounds_refuted :
  (forall m n, List.length m = 200 -> is_bytes m -> (24 < n < 2 ^ 32)%N -> opt_permuteN m n = if N.odd n then UB OutOfBounds else Ok m) /\
  exists J m m', List.length m = 200 /\ is_bytes m /\ asm_permuteN J 2900 m 26 = Ok m' /\ m' <> m.
Proof. exact many_rounds. Qed.
Print Assumptions C80_many_rounds_refuted.
(** All 200 bytes at once: the C code goes on to a 26th lane, which the state does not have. *)
Theorem C80_all_refuted : forall m mem p q, List.length m = 200 -> is_bytes m -> is_bytes mem -> p + 200 <= List.length mem -> q + 200 <= List.length mem -> q <= p \/ p + 200 <= q ->
  opt_extract m 0 200 = UB OutOfBounds /\ opt_xadd m mem p q 0 200 = UB OutOfBounds.
Proof. exact all_at_once. Qed.
Print Assumptions C80_all_refuted.
(** No lanes per block: the C code does not end, the assembly runs through memory. *)
Theorem C80_no_lanes_refuted : (forall fuel m d, List.length m = 200 -> opt_fast fuel m 0 d = OutOfFuel /\ opt_fast12 fuel m 0 d = OutOfFuel) /\
  exists J m d, List.length m = 200 /\ is_bytes m /\ is_bytes d /\ asm_absorb J "KeccakF1600_FastLoop_Absorb" 1 m 0 d = UB OutOfBounds /\ asm_absorb J "KeccakP1600_12rounds_FastLoop_Absorb" 1 m 0 d = UB OutOfBounds.
Proof. exact zero_lanes. Qed.
Print Assumptions C80_no_lanes_refuted.
(** An output one byte above its input, which call_ok leaves out: both read back what they have written. *)
Theorem C80_overlap_refuted : exists J m mem off len, List.length m = 200 /\ is_bytes m /\ is_bytes mem /\ off + len <= 200 /\ 1 + len <= List.length mem /\
  snd (state_step m (ExtractAndAddBytes mem 0 1 off len)) <> mem /\
  (forall o, opt_xadd m mem 0 1 off len = Ok o -> o <> snd (state_step m (ExtractAndAddBytes mem 0 1 off len))) /\
  (forall m' o, asm_xadd J m mem 0 1 off len = Ok (m', o) -> o <> snd (state_step m (ExtractAndAddBytes mem 0 1 off len))).
Proof. exact overlap. Qed.
Print Assumptions C80_overlap_refuted.

(** All kinds of calls, over memory full of 0xA5 *)
Definition some_calls : list state_call :=
  [OverwriteBytes [1; 2; 3; 4; 5; 6; 7; 8; 9; 10; 11; 12]%N 5 11; AddByte 0x1F 9; AddBytes [0xF0; 0x0F; 0xFF]%N 7 2; ExtractBytes 0 17;
   Permute_Nrounds 2; OverwriteWithZeroes 3; ExtractBytes 1 5; Permute_12rounds; ExtractAndAddBytes [1; 2; 3; 4; 5; 6; 7; 8; 9; 10; 11; 12]%N 2 0 60 9;
   FastLoop_Absorb 2 (repeat 0xC3%N 40); FastLoop_Absorb_12rounds 17 (repeat 0x3C%N 135); FastLoop_Absorb_12rounds 3 (repeat 0x3C%N 30)].
Example C80_case : Forall call_ok some_calls /\ (avx2_calls some_junk (repeat 0xA5%N 200) some_calls = opt64_calls (repeat 0xA5%N 200) some_calls) /\
  opt64_calls (repeat 0xA5%N 200) some_calls = Ok (state_run some_calls) /\
  nth 3 (state_run some_calls) [] = [0; 0; 0; 0; 0; 1; 2; 0xF3; 0x0B; 0x1A; 6; 7; 8; 9; 10; 11; 0]%N /\
  firstn 2 (nth 6 (state_run some_calls) []) = [0; 0]%N /\ nth 2 (nth 6 (state_run some_calls) []) 0%N <> 0%N /\
  skipn 9 (nth 8 (state_run some_calls) []) = [10; 11; 12]%N /\ skipn 9 (state_run some_calls) = [[32]; [0]; [24]]%N.
Proof.
  assert (F : Forall call_ok some_calls).
  { unfold some_calls, call_ok. repeat apply Forall_cons; try apply Forall_nil; cbn [List.length]; repeat split; try lia; try (unfold is_byte; lia); try exact I.
    all: try (repeat (apply Forall_cons; [unfold is_byte; lia|]); apply Forall_nil); try (apply Forall_forall; intros x Hx; apply repeat_spec in Hx; subst x; unfold is_byte; lia); vm_compute; reflexivity. }
  assert (N : Forall not_all some_calls) by (unfold some_calls, not_all; repeat apply Forall_cons; try apply Forall_nil; try exact I; lia).
  split; [exact F|]. split; [apply C80_same; try reflexivity; assumption|]. pose proof (C80_opt64 (repeat 0xA5%N 200) some_calls eq_refl F N) as E. split; [exact E|].
  assert (V : exists l, opt64_calls (repeat 0xA5%N 200) some_calls = Ok l /\ nth 3 l [] = [0; 0; 0; 0; 0; 1; 2; 0xF3; 0x0B; 0x1A; 6; 7; 8; 9; 10; 11; 0]%N /\ firstn 2 (nth 6 l []) = [0; 0]%N /\ nth 2 (nth 6 l []) 0%N <> 0%N /\ skipn 9 (nth 8 l []) = [10; 11; 12]%N /\ skipn 9 l = [[32]; [0]; [24]]%N).
  { eexists. split; [vm_compute; reflexivity|]. vm_compute. repeat split; discriminate. }
  destruct V as (l & E' & V). rewrite E in E'. injection E' as ->. exact V.
Qed.
