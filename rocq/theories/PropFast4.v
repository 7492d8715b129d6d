(** C84: the absorbing loops on four Keccak states of keccak/avx2/KeccakP-1600-times4-SIMD256.c, together with all the
    functions of C83.  Specification: Fast4Spec, FourSpec, StateSpec. *)
From Coq Require Import Arith NArith List Bool Lia.
From Verif Require Import Prelude SpongeModel KeccakSpec X86Model Simd256Model StateSpec FourSpec FourModel Fast4Spec Fast4Model Fast4Facts Fast4Past.
Import ListNotations.

(** Whatever the memory of the states held before, if it and the tables are aligned to 32 bytes, every sequence of calls gives the
    caller what the same calls on four arrays of 200 bytes would: each loop absorbs every block the data holds for all four
    states, permuting after each, and returns how far it got. *)
Theorem C84_simd256 : forall P m cs, (at_states P mod 32 = 0 /\ at_rho8 P mod 32 = 0 /\ at_rho56 P mod 32 = 0)%N -> length m = 800 -> Forall fast_ok cs ->
  fast4_calls P m cs = Ok (fast_run cs).
Proof. exact fast4_calls_ok. Qed.
Print Assumptions C84_simd256.
(** fast_ok says that the blocks advance.  With laneOffsetSerial 0, which KeccakSpongetimes4.inc:78 would pass if
    KeccakSpongetimes4.c:24 were not commented out, the loops never end once there is data for one block. *)
Theorem C84_no_advance_refuted : forall P fuel m m' k par d, (at_states P mod 32 = 0 /\ at_rho8 P mod 32 = 0 /\ at_rho56 P mod 32 = 0)%N -> length m = 800 -> init_all m = Ok m' ->
  is_bytes d -> (N.of_nat (length d) < 2 ^ 64)%N -> k <= 25 -> 8 * (par * 3 + k) <= length d ->
  fast_absorb24 P fuel m' k par 0 d = OutOfFuel /\ fast_absorb12 P fuel m' k par 0 d = OutOfFuel.
Proof. exact stays_ok. Qed.
Print Assumptions C84_no_advance_refuted.
(** It also says that the last block does not advance beyond the end of the data.  Where it does, the number of bytes left, a
    size_t, wraps around, and the loops read beyond the data. *)
Theorem C84_past_end_refuted : forall P m k par ser d, (at_states P mod 32 = 0 /\ at_rho8 P mod 32 = 0 /\ at_rho56 P mod 32 = 0)%N -> length m = 800 ->
  is_bytes d -> (N.of_nat (length d) < 2 ^ 64)%N -> 1 <= k <= 25 -> 1 <= ser -> 8 * (par * 3 + k) <= length d -> (N.of_nat (8 * (par * 3 + k + ser)) <= 2 ^ 64)%N ->
  length d < 8 * ser * block_count k par ser (length d) ->
  fast4_calls P m [FastLoop k par ser d] = UB OutOfBounds /\ fast4_calls P m [FastLoop_12rounds k par ser d] = UB OutOfBounds.
Proof. exact past_ok. Qed.
Print Assumptions C84_past_end_refuted.

(** Two blocks of one lane, two of 21 lanes that overlap, and too little data for one, over memory full of 0xA5 *)
Definition some_calls : list fast_call :=
  let d := map N.of_nat (seq 1 224) in
  [FastLoop_12rounds 1 1 2 (firstn 50 d); FastLoop 21 1 4 d; FastLoop 2 2 1 (firstn 63 d); Plain (OnState 3 (ExtractBytes 5 6))].
Example C84_case : Forall fast_ok some_calls /\ fast4_calls (mkPlace 32 64 96) (repeat 0xA5%N 800) some_calls = Ok (fast_run some_calls) /\
  firstn 3 (fast_run some_calls) = [[32]; [64]; [0]]%N.
Proof.
  assert (B : forall n, is_bytes (firstn n (map N.of_nat (seq 1 224)))).
  { intros n. unfold is_bytes. rewrite Forall_forall. intros x Hx. assert (Y : List.In x (map N.of_nat (seq 1 224))) by (rewrite <- (firstn_skipn n _); apply in_or_app; left; exact Hx).
    apply in_map_iff in Y. destruct Y as (i & <- & Hi). apply in_seq in Hi. unfold is_byte. lia. }
  assert (F : Forall fast_ok some_calls).
  { unfold some_calls. cbv zeta. repeat apply Forall_cons; try apply Forall_nil; cbn [fast_ok].
    - split; [apply B|]. split; [reflexivity|]. split; [lia|]. split; [lia|]. apply Nat.leb_le. reflexivity.
    - split; [exact (B 224)|]. split; [reflexivity|]. split; [lia|]. split; [lia|]. apply Nat.leb_le. reflexivity.
    - split; [apply B|]. split; [reflexivity|]. split; [lia|]. split; [lia|]. apply Nat.leb_le. reflexivity.
    - cbn [four_ok call_ok]. repeat split; lia. }
  split; [exact F|]. split; [apply C84_simd256; [repeat split|reflexivity|exact F]|]. reflexivity.
Qed.
(** One lane for each state, 32 bytes in all, and the next block 40 bytes on: beyond the data. *)
Example C84_past_end_case : fast4_calls (mkPlace 32 64 96) (repeat 0xA5%N 800) [FastLoop 1 1 5 (map N.of_nat (seq 1 32))] = UB OutOfBounds.
Proof. vm_compute. reflexivity. Qed.
