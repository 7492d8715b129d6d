(** C83: the functions on four Keccak states that keccak/avx2/KeccakP-1600-times4-SIMD256.c and keccak/opt64/PlSnP-Fallback.inc
    offer, but for the fast loops, in any order and with any arguments within bounds.  Specification: FourSpec, StateSpec. *)
From Coq Require Import Arith NArith List Bool Lia.
From Verif Require Import Prelude SpongeModel KeccakSpec X86Model Opt64Model Simd256Model StateSpec FourSpec FourModel FourOpt FourSimd.
Import ListNotations.

(** The intrinsics: whatever the memory of the states held before, if it and the tables are aligned to 32 bytes, every sequence
    of calls gives the caller what the same calls on four arrays of 200 bytes would. *)
Theorem C83_simd256 : forall P m cs, (at_states P mod 32 = 0 /\ at_rho8 P mod 32 = 0 /\ at_rho56 P mod 32 = 0)%N -> length m = 800 -> Forall four_ok cs ->
  simd_calls P m cs = Ok (four_run cs).
Proof. exact simd_calls_ok. Qed.
Print Assumptions C83_simd256.
(** The C code: the same, if no call extracts all 200 bytes of a state at once. *)
Theorem C83_opt64 : forall m cs, length m = 800 -> Forall four_ok cs ->
  Forall (fun c => match c with
    | OnState _ (ExtractBytes off len) | OnState _ (ExtractAndAddBytes _ _ _ off len) => off = 0 -> len < 200
    | ExtractLanesAll _ k _ | ExtractAndAddLanesAll _ _ k _ => k < 25
    | _ => True end) cs ->
  opt4_calls m cs = Ok (four_run cs).
Proof.
  intros m cs L H N. apply (opt4_calls_ok m cs L H). eapply Forall_impl; [|exact N]. intros [i [] | | | | | | | |] X; exact X.
Qed.
Print Assumptions C83_opt64.
(** Hence a caller cannot tell the two apart. *)
Theorem C83_same : forall P m m' cs, (at_states P mod 32 = 0 /\ at_rho8 P mod 32 = 0 /\ at_rho56 P mod 32 = 0)%N -> length m = 800 -> length m' = 800 -> Forall four_ok cs ->
  Forall (fun c => match c with
    | OnState _ (ExtractBytes off len) | OnState _ (ExtractAndAddBytes _ _ _ off len) => off = 0 -> len < 200
    | ExtractLanesAll _ k _ | ExtractAndAddLanesAll _ _ k _ => k < 25
    | _ => True end) cs ->
  simd_calls P m cs = opt4_calls m' cs.
Proof. intros P m m' cs HP L L' H N. rewrite (C83_simd256 P m cs HP L H), (C83_opt64 m' cs L' H N). reflexivity. Qed.
Print Assumptions C83_same.

(** Where the two differ.  All 25 lanes: the C code goes on to a 26th lane of a state, which it does not have. *)
Theorem C83_all_lanes_refuted : forall m out off, length m = 800 -> is_bytes out -> 25 <= off -> 8 * off * 3 + 8 * 25 <= length out ->
  opt4_calls m [ExtractLanesAll out 25 off] = UB OutOfBounds /\
  forall input, is_bytes input -> 8 * off * 3 + 8 * 25 <= length input -> opt4_calls m [ExtractAndAddLanesAll input out 25 off] = UB OutOfBounds.
Proof. exact four_all_lanes. Qed.
Print Assumptions C83_all_lanes_refuted.
(** More lanes than laneOffset, which four_ok leaves out for extraction: the intrinsics write the lanes in another order than
    the C code, and what is left where they overlap differs. *)
Theorem C83_overlap_refuted : exists P m cs o1 o2, (at_states P mod 32 = 0 /\ at_rho8 P mod 32 = 0 /\ at_rho56 P mod 32 = 0)%N /\ length m = 800 /\
  simd_calls P m cs = Ok o1 /\ opt4_calls m cs = Ok o2 /\ o1 <> o2.
Proof.
  exists (mkPlace 0 0 0), (repeat 0xA5%N 800), [OnState 0 (AddByte 1 8); ExtractLanesAll (repeat 0%N 40) 2 1]. eexists. eexists. split; [repeat split|]. split; [reflexivity|]. split; [vm_compute; reflexivity|]. split; [vm_compute; reflexivity|].
  vm_compute. discriminate.
Qed.
Print Assumptions C83_overlap_refuted.

(** All kinds of calls, over memory full of 0xA5 *)
Definition four_calls : list four_call :=
  let d := map N.of_nat (seq 1 200) in
  [AddLanesAll d 2 5; OverwriteLanesAll (rev d) 1 7; OnState 1 (AddByte 0x80 9); OnState 2 (AddBytes d 3 7); OnState 3 (OverwriteBytes d 6 5); OnState 0 (OverwriteWithZeroes 4);
   OnState 3 (ExtractBytes 4 9); ExtractLanesAll (repeat 0xEE%N 104) 2 3; PermuteAll_4rounds; PermuteAll_6rounds; PermuteAll_12rounds; PermuteAll_24rounds;
   OnState 2 (ExtractAndAddBytes d 3 1 5 6); ExtractAndAddLanesAll d (repeat 0%N 32) 1 1].
Example C83_case : Forall four_ok four_calls /\ simd_calls (mkPlace 32 64 96) (repeat 0xA5%N 800) four_calls = opt4_calls (repeat 0xA5%N 800) four_calls /\
  opt4_calls (repeat 0xA5%N 800) four_calls = Ok (four_run four_calls) /\
  nth 6 (four_run four_calls) [] = [28; 27; 1; 2; 3; 4; 5; 132; 133]%N /\
  firstn 56 (nth 7 (four_run four_calls) []) =
    [0; 0; 0; 0; 196; 195; 194; 193; 9; 10; 11; 12; 13; 14; 15; 16; 0xEE; 0xEE; 0xEE; 0xEE; 0xEE; 0xEE; 0xEE; 0xEE;
     144; 143; 142; 141; 140; 139; 138; 137; 49; 178; 51; 52; 53; 54; 55; 56; 0xEE; 0xEE; 0xEE; 0xEE; 0xEE; 0xEE; 0xEE; 0xEE;
     88; 87; 86; 84; 86; 80; 86; 84]%N /\
  length (nth 13 (four_run four_calls) []) = 32.
Proof.
  assert (F : Forall four_ok four_calls).
  { assert (B : is_bytes (map N.of_nat (seq 1 200))) by (apply Forall_forall; intros x Hx; apply in_map_iff in Hx; destruct Hx as (y & <- & Hy); apply in_seq in Hy; unfold is_byte; lia).
    assert (L : length (map N.of_nat (seq 1 200)) = 200) by (rewrite map_length; apply seq_length).
    assert (R : forall b n, (b < 256)%N -> is_bytes (repeat b n)) by (intros b n Hb; apply Forall_forall; intros x Hx; apply repeat_spec in Hx; subst x; exact Hb).
    unfold four_calls. cbv zeta. generalize dependent (map N.of_nat (seq 1 200)). intros d B L.
    repeat apply Forall_cons; try apply Forall_nil; cbn [four_ok call_ok]; rewrite ?rev_length, ?repeat_length, ?L; repeat split; try lia; try exact B; try (apply Forall_rev; exact B); try (apply R; lia); try (unfold is_byte; lia); try exact I. }
  assert (N : Forall (fun c => match c with
    | OnState _ (ExtractBytes off len) | OnState _ (ExtractAndAddBytes _ _ _ off len) => off = 0 -> len < 200
    | ExtractLanesAll _ k _ | ExtractAndAddLanesAll _ _ k _ => k < 25
    | _ => True end) four_calls) by (unfold four_calls; cbv zeta; repeat apply Forall_cons; try apply Forall_nil; try exact I; lia).
  split; [exact F|]. split; [apply C83_same; try reflexivity; try assumption; repeat split|]. pose proof (C83_opt64 (repeat 0xA5%N 800) four_calls eq_refl F N) as E. split; [exact E|].
  assert (V : exists l, opt4_calls (repeat 0xA5%N 800) four_calls = Ok l /\ nth 6 l [] = [28; 27; 1; 2; 3; 4; 5; 132; 133]%N /\ firstn 56 (nth 7 l []) =
    [0; 0; 0; 0; 196; 195; 194; 193; 9; 10; 11; 12; 13; 14; 15; 16; 0xEE; 0xEE; 0xEE; 0xEE; 0xEE; 0xEE; 0xEE; 0xEE;
     144; 143; 142; 141; 140; 139; 138; 137; 49; 178; 51; 52; 53; 54; 55; 56; 0xEE; 0xEE; 0xEE; 0xEE; 0xEE; 0xEE; 0xEE; 0xEE;
     88; 87; 86; 84; 86; 80; 86; 84]%N /\ length (nth 13 l []) = 32).
  { eexists. split; [vm_compute; reflexivity|]. vm_compute. repeat split. }
  destruct V as (l & E' & V). rewrite E in E'. injection E' as ->. exact V.
Qed.
