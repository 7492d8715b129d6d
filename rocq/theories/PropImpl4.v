(** C82: the four-way hash library as it is built, KeccakHashtimes4.c and KeccakSpongetimes4.inc on the AVX2 intrinsics (SIMD256) or on
    the C code: any rate, suffix and sequence of calls.  Specification: in each lane what C81 says of the scalar functions (HashImplSpec,
    BitHashSpec). *)
From Coq Require Import Arith NArith List Bool Lia.
From Verif Require KeccakSpec.
From Verif Require Import Prelude BitHashSpec HashImplSpec SnpSponge Opt64Model Opt64Facts Simd256Model Simd256Facts SnpHash4 SnpHash4Sim SnpHashFacts SnpHash4Facts.
Import ListNotations.
Local Open Scope nat_scope.

(** With the intrinsics, for every rate; P: where the states and tables lie, m: the old contents of the states.  Lane i gets the sponge
    of FIPS 202 on its own bytes, and the answers of the scalar functions.  Missing for C82: updates and requests of 2^32 - 200 bytes and
    more; four buffers of different lengths. *)
Theorem C82_simd256_partial : forall P m rate capacity hashbitlen suffix ups cs, (at_states P mod 32 = 0 /\ at_rho8 P mod 32 = 0 /\ at_rho56 P mod 32 = 0)%N -> length m = 800 ->
  (capacity < 2 ^ 32)%N -> (suffix < 256)%N -> sound rate capacity suffix -> (hashbitlen / 8 + 200 <= 2 ^ 32)%N ->
  Forall (fun u => even4 (update4 u)) ups -> Forall (fun u => forall i, i < 4 -> fits (nth i (fst u) [], snd u)) ups -> Forall even4 cs ->
  (forall i, i < 4 -> Forall modest (map (lane i) cs) /\ Forall machine_call (map (lane i) cs)) ->
  exists g : nat -> nat -> N, (forall i, i < 4 -> is_sponge (N.to_nat rate) (message (lane_data i ups) ++ suffix_bits suffix) (g i)) /\
  exists fuel0, forall fuel, fuel0 <= fuel -> exists l,
    hash4_session (simd256 P) fuel m rate capacity hashbitlen suffix (map update4 ups ++ Final4 :: cs) = Ok (Some l) /\ forall i, i < 4 ->
      map (fun r => (fst r, nth i (snd r) [])) l =
      map (fun _ => (Success, [])) ups ++ (Success, outputs (g i) 0 (N.to_nat (hashbitlen / 8))) :: answers (g i) (N.to_nat (hashbitlen / 8)) (map (lane i) cs).
Proof.
  intros P m rate capacity hashbitlen suffix ups cs A Hm Hc Hs S. pose proof (sound_bytes _ _ _ S) as [Hr _].
  exact (any4_message (simd256 P) _ 200 (simd256_any4 P A) (le_n 200) m rate capacity hashbitlen suffix ups cs Hm ltac:(lia) Hc Hs S).
Qed.
Print Assumptions C82_simd256_partial.
(** With the C code, for every rate but 1600 *)
Theorem C82_opt64_partial : forall m rate capacity hashbitlen suffix ups cs, length m = 800 -> (rate < 1600)%N ->
  (capacity < 2 ^ 32)%N -> (suffix < 256)%N -> sound rate capacity suffix -> (hashbitlen / 8 + 200 <= 2 ^ 32)%N ->
  Forall (fun u => even4 (update4 u)) ups -> Forall (fun u => forall i, i < 4 -> fits (nth i (fst u) [], snd u)) ups -> Forall even4 cs ->
  (forall i, i < 4 -> Forall modest (map (lane i) cs) /\ Forall machine_call (map (lane i) cs)) ->
  exists g : nat -> nat -> N, (forall i, i < 4 -> is_sponge (N.to_nat rate) (message (lane_data i ups) ++ suffix_bits suffix) (g i)) /\
  exists fuel0, forall fuel, fuel0 <= fuel -> exists l,
    hash4_session opt64x4 fuel m rate capacity hashbitlen suffix (map update4 ups ++ Final4 :: cs) = Ok (Some l) /\ forall i, i < 4 ->
      map (fun r => (fst r, nth i (snd r) [])) l =
      map (fun _ => (Success, [])) ups ++ (Success, outputs (g i) 0 (N.to_nat (hashbitlen / 8))) :: answers (g i) (N.to_nat (hashbitlen / 8)) (map (lane i) cs).
Proof.
  intros m rate capacity hashbitlen suffix ups cs Hm Hr. assert (X : (rate / 8 < 200)%N) by (apply N.div_lt_upper_bound; [discriminate|exact Hr]).
  exact (any4_message opt64x4 _ 199 opt64x4_any4 ltac:(lia) m rate capacity hashbitlen suffix ups cs Hm ltac:(lia)).
Qed.
Print Assumptions C82_opt64_partial.
(** the two give the same answers *)
Theorem C82_same_partial : forall P m m' rate capacity hashbitlen suffix ups cs, (at_states P mod 32 = 0 /\ at_rho8 P mod 32 = 0 /\ at_rho56 P mod 32 = 0)%N ->
  length m = 800 -> length m' = 800 -> (rate < 1600)%N ->
  (capacity < 2 ^ 32)%N -> (suffix < 256)%N -> sound rate capacity suffix -> (hashbitlen / 8 + 200 <= 2 ^ 32)%N ->
  Forall (fun u => even4 (update4 u)) ups -> Forall (fun u => forall i, i < 4 -> fits (nth i (fst u) [], snd u)) ups -> Forall even4 cs ->
  (forall i, i < 4 -> Forall modest (map (lane i) cs) /\ Forall machine_call (map (lane i) cs)) ->
  exists fuel0, forall fuel, fuel0 <= fuel -> exists l,
    hash4_session (simd256 P) fuel m rate capacity hashbitlen suffix (map update4 ups ++ Final4 :: cs) = Ok (Some l) /\
    hash4_session opt64x4 fuel m' rate capacity hashbitlen suffix (map update4 ups ++ Final4 :: cs) = Ok (Some l).
Proof. exact sessions4_same. Qed.
Print Assumptions C82_same_partial.
(** Output before Final: the suffix is left out *)
Theorem C82_early_partial : forall P m rate capacity hashbitlen suffix ups q cs, (at_states P mod 32 = 0 /\ at_rho8 P mod 32 = 0 /\ at_rho56 P mod 32 = 0)%N -> length m = 800 ->
  (capacity < 2 ^ 32)%N -> (suffix < 256)%N -> sound rate capacity suffix ->
  Forall (fun u => even4 (update4 u)) ups -> Forall (fun u => forall i, i < 4 -> fits (nth i (fst u) [], snd u)) ups -> Forall even4 cs ->
  (forall i, i < 4 -> Forall modest (map (lane i) (Squeeze4 q :: cs)) /\ Forall machine_call (map (lane i) cs)) -> (q mod 8 = 0)%N ->
  forall Q, Q = simd256 P \/ (Q = opt64x4 /\ (rate < 1600)%N) ->
  exists g : nat -> nat -> N, (forall i, i < 4 -> is_sponge (N.to_nat rate) (message (lane_data i ups)) (g i)) /\
  exists fuel0, forall fuel, fuel0 <= fuel -> exists l,
    hash4_session Q fuel m rate capacity hashbitlen suffix (map update4 ups ++ Squeeze4 q :: cs) = Ok (Some l) /\ forall i, i < 4 ->
      map (fun r => (fst r, nth i (snd r) [])) l = map (fun _ => (Success, [])) ups ++ answers (g i) 0 (map (lane i) (Squeeze4 q :: cs)).
Proof.
  intros P m rate capacity hashbitlen suffix ups q cs A Hm Hc Hs S EV FT EC MO Hq Q [-> | [-> Hr']]; pose proof (sound_bytes _ _ _ S) as [Hr _].
  - apply (any4_early (simd256 P) _ 200 (simd256_any4 P A) (le_n 200)); try assumption. lia.
  - assert (X : (rate / 8 < 200)%N) by (apply N.div_lt_upper_bound; [discriminate|exact Hr']). apply (any4_early opt64x4 _ 199 opt64x4_any4 ltac:(lia)); try assumption. lia.
Qed.
Print Assumptions C82_early_partial.
(** SHA3-224, -256, -384, -512 and SHAKE128, 256 through the macros of KeccakHashtimes4.h *)
Theorem C82_fips202_partial : forall P m a ups q, (at_states P mod 32 = 0 /\ at_rho8 P mod 32 = 0 /\ at_rho56 P mod 32 = 0)%N -> length m = 800 ->
  Forall (fun u => even4 (update4 u)) ups -> Forall (fun u => forall i, i < 4 -> fits (nth i (fst u) [], snd u)) ups -> (q mod 8 = 0)%N -> (q / 8 + 200 <= 2 ^ 32)%N ->
  forall Q, Q = simd256 P \/ Q = opt64x4 ->
  exists fuel0, forall fuel, fuel0 <= fuel -> exists l, macro4_session Q fuel m a (map update4 ups ++ [Final4; Squeeze4 q]) = Ok (Some l) /\
    forall i, i < 4 -> exists digest more,
      map (fun r => (fst r, nth i (snd r) [])) l = map (fun _ => (Success, [])) ups ++ [(Success, digest); (Success, more)] /\
      KeccakSpec.bits_of digest = fips202 a (message (lane_data i ups)) (digest_of a) /\
      KeccakSpec.bits_of (digest ++ more) = fips202 a (message (lane_data i ups)) (digest_of a + N.to_nat q).
Proof.
  intros P m a ups q A Hm EV FT Hq Ho Q [-> | ->].
  - apply (any4_fips202 (simd256 P) _ 200 (simd256_any4 P A) (le_n 200) ltac:(lia)); assumption.
  - apply (any4_fips202 opt64x4 _ 199 opt64x4_any4 ltac:(lia) ltac:(lia)); assumption.
Qed.
Print Assumptions C82_fips202_partial.
(** Bad parameters: refused before the states are touched, whatever the implementation *)
Theorem C82_refused : forall Q m rate capacity hashbitlen suffix fuel cs, (capacity < 2 ^ 32)%N -> ~ sound rate capacity suffix ->
  hash4_session Q fuel m rate capacity hashbitlen suffix cs = Ok None.
Proof. exact any4_refused. Qed.
Print Assumptions C82_refused.
(** A rate of 1600 bits is accepted, but with the C code a whole block of output reads beyond a state *)
Theorem C82_full_rate_refuted : forall m suffix fuel, length m = 800 -> (0 < suffix < 256)%N ->
  hash4_session opt64x4 (S fuel) m 1600 0 0 suffix [Final4; Squeeze4 1600] = UB OutOfBounds /\
  hash4_session opt64x4 (S fuel) m 1600 0 1600 suffix [Final4] = UB OutOfBounds.
Proof. exact opt64x4_full_rate. Qed.
Print Assumptions C82_full_rate_refuted.

(** A rate of 200 bytes; two updates; a digest of 32 bytes, more output, a late update, 3 bits of output *)
Definition four_inputs : list (list bytes * N) := [([[1; 2]; [3; 4]; [5; 6]; [7; 8]]%N, 16%N); ([[9; 0]; [10; 0]; [11; 0]; [12; 0]]%N, 8%N)].
Definition four_more : list call4 := [Squeeze4 2048; Update4 [[1]; [2]; [3]; [4]]%N 8; Squeeze4 3; Squeeze4 8].
Example C82_case : exists l fuel, hash4_session (simd256 (mkPlace 0x7000 0x4000 0x4020)) fuel (repeat 0xA5%N 800) 1600 0 256 6 (map update4 four_inputs ++ Final4 :: four_more) = Ok (Some l) /\
  forall i, i < 4 -> map (fun r => (fst r, length (nth i (snd r) []))) l = [(Success, 0); (Success, 0); (Success, 32); (Success, 256); (Fail, 0); (Fail, 0); (Success, 1)].
Proof.
  assert (I4 : forall T : nat -> Prop, T 0 -> T 1 -> T 2 -> T 3 -> forall i, i < 4 -> T i) by (intros T T0 T1 T2 T3 i Hi; destruct i as [|[|[|[|i]]]]; [exact T0|exact T1|exact T2|exact T3|lia]).
  destruct (C82_simd256_partial (mkPlace 0x7000 0x4000 0x4020) (repeat 0xA5%N 800) 1600 0 256 6 four_inputs four_more) as (g & _ & fuel0 & E); try reflexivity.
  - repeat split; reflexivity.
  - repeat split; discriminate || reflexivity.
  - discriminate.
  - repeat constructor; exists 2; repeat constructor.
  - constructor; [|constructor; [|constructor]]; apply I4; cbn [nth fst snd]; repeat constructor; discriminate.
  - repeat constructor. exists 1. repeat constructor.
  - apply I4; split; repeat constructor; discriminate.
  - destruct (E fuel0 (le_n _)) as (l & El & H). exists l, fuel0. split; [exact El|]. intros i Hi. specialize (H i Hi).
    refine (eq_trans (eq_sym (map_map (fun r : status * list bytes => (fst r, nth i (snd r) [])) (fun a : status * bytes => (fst a, length (snd a))) l)) _).
    exact (eq_trans (f_equal (map (fun a : status * bytes => (fst a, length (snd a)))) H) eq_refl).
Qed.
