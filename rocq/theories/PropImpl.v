(** C81: the hash library as it is built, KeccakHash.c and KeccakSponge.inc on the AVX2 assembly or on the 64-bit C code: any rate,
    suffix, number of bits and sequence of calls.  Specification: HashImplSpec (the output is the sponge of FIPS 202), BitHashSpec
    (what the calls answer). *)
From Coq Require Import Arith NArith String List Bool Lia.
From Verif Require KeccakSpec.
From Verif Require Import Prelude BitHashSpec HashImplSpec SnpSponge Avx2Model Avx2Sim Opt64Model Opt64Facts SnpHash SnpHashSim SnpHashFacts PropAvx2.
Import ListNotations.
Local Open Scope nat_scope.
Local Open Scope list_scope.

(** With the assembly, for every rate; m: the old contents of the state, J: of registers and output buffers.  Missing for C81:
    updates and requests of 2^32 - 200 bytes and more. *)
Theorem C81_avx2_partial : forall J m rate capacity hashbitlen suffix ups cs, List.length m = 200 ->
  (capacity < 2 ^ 32)%N -> (suffix < 256)%N -> sound rate capacity suffix ->
  (hashbitlen / 8 + 200 <= 2 ^ 32)%N -> Forall fits ups -> Forall whole_bytes (removelast ups) -> Forall modest cs -> Forall machine_call cs ->
  exists g fuel0, is_sponge (N.to_nat rate) (message ups ++ suffix_bits suffix) g /\ forall fuel, fuel0 <= fuel ->
    let n := N.to_nat (hashbitlen / 8) in
    hash_session (avx2_any J) fuel m rate capacity hashbitlen suffix (map update ups ++ Final :: cs) =
    Ok (Some (map (fun _ => (Success, [])) ups ++ (Success, outputs g 0 n) :: answers g n cs)).
Proof.
  intros J m rate capacity hashbitlen suffix ups cs Hm Hc Hs S. pose proof (sound_bytes _ _ _ S) as [Hr _].
  exact (any_message (avx2_any J) _ 200 (avx2_any_simulates J) (le_n 200) m rate capacity hashbitlen suffix ups cs Hm ltac:(lia) Hc Hs S).
Qed.
Print Assumptions C81_avx2_partial.
(** With the C code, for every rate but 1600 *)
Theorem C81_opt64_partial : forall m rate capacity hashbitlen suffix ups cs, List.length m = 200 -> (rate < 1600)%N ->
  (capacity < 2 ^ 32)%N -> (suffix < 256)%N -> sound rate capacity suffix ->
  (hashbitlen / 8 + 200 <= 2 ^ 32)%N -> Forall fits ups -> Forall whole_bytes (removelast ups) -> Forall modest cs -> Forall machine_call cs ->
  exists g fuel0, is_sponge (N.to_nat rate) (message ups ++ suffix_bits suffix) g /\ forall fuel, fuel0 <= fuel ->
    let n := N.to_nat (hashbitlen / 8) in
    hash_session opt64 fuel m rate capacity hashbitlen suffix (map update ups ++ Final :: cs) =
    Ok (Some (map (fun _ => (Success, [])) ups ++ (Success, outputs g 0 n) :: answers g n cs)).
Proof.
  intros m rate capacity hashbitlen suffix ups cs Hm Hr. assert (Q : (rate / 8 < 200)%N) by (apply N.div_lt_upper_bound; [discriminate|exact Hr]).
  exact (any_message opt64 _ 199 opt64_any_simulates ltac:(lia) m rate capacity hashbitlen suffix ups cs Hm ltac:(lia)).
Qed.
Print Assumptions C81_opt64_partial.
(** the two give the same answers *)
Theorem C81_same_partial : forall J m m' rate capacity hashbitlen suffix ups cs, List.length m = 200 -> List.length m' = 200 -> (rate < 1600)%N ->
  (capacity < 2 ^ 32)%N -> (suffix < 256)%N -> sound rate capacity suffix ->
  (hashbitlen / 8 + 200 <= 2 ^ 32)%N -> Forall fits ups -> Forall whole_bytes (removelast ups) -> Forall modest cs -> Forall machine_call cs ->
  exists l fuel0, forall fuel, fuel0 <= fuel ->
    hash_session (avx2_any J) fuel m rate capacity hashbitlen suffix (map update ups ++ Final :: cs) = Ok (Some l) /\
    hash_session opt64 fuel m' rate capacity hashbitlen suffix (map update ups ++ Final :: cs) = Ok (Some l).
Proof. exact sessions_same. Qed.
Print Assumptions C81_same_partial.
(** Output before Final: the suffix is left out *)
Theorem C81_early_partial : forall J m rate capacity hashbitlen suffix ups q cs, List.length m = 200 ->
  (capacity < 2 ^ 32)%N -> (suffix < 256)%N -> sound rate capacity suffix ->
  Forall fits ups -> Forall whole_bytes ups -> Forall modest (Squeeze q :: cs) -> (q mod 8 = 0)%N -> Forall machine_call cs ->
  (exists g fuel0, is_sponge (N.to_nat rate) (message ups) g /\ forall fuel, fuel0 <= fuel ->
    hash_session (avx2_any J) fuel m rate capacity hashbitlen suffix (map update ups ++ Squeeze q :: cs) =
    Ok (Some (map (fun _ => (Success, [])) ups ++ answers g 0 (Squeeze q :: cs)))) /\
  ((rate < 1600)%N -> exists g fuel0, is_sponge (N.to_nat rate) (message ups) g /\ forall fuel, fuel0 <= fuel ->
    hash_session opt64 fuel m rate capacity hashbitlen suffix (map update ups ++ Squeeze q :: cs) =
    Ok (Some (map (fun _ => (Success, [])) ups ++ answers g 0 (Squeeze q :: cs)))).
Proof.
  intros J m rate capacity hashbitlen suffix ups q cs Hm Hc Hs S Hu Hw Ho Hq Hcs. pose proof (sound_bytes _ _ _ S) as [Hr _]. split.
  - apply (any_early (avx2_any J) _ 200 (avx2_any_simulates J) (le_n 200)); try assumption. lia.
  - intros Hr'. assert (Q : (rate / 8 < 200)%N) by (apply N.div_lt_upper_bound; [discriminate|exact Hr']). apply (any_early opt64 _ 199 opt64_any_simulates ltac:(lia)); try assumption. lia.
Qed.
Print Assumptions C81_early_partial.
(** SHA3-224, -256, -384, -512 and SHAKE128, 256 through the macros of KeccakHash.h *)
Theorem C81_fips202_partial : forall J m a ups q, List.length m = 200 -> Forall fits ups -> Forall whole_bytes (removelast ups) ->
  (q mod 8 = 0)%N -> (q / 8 + 200 <= 2 ^ 32)%N ->
  (exists fuel0, forall fuel, fuel0 <= fuel -> exists digest more,
    macro_session (avx2_any J) fuel m a (map update ups ++ [Final; Squeeze q]) = Ok (Some (map (fun _ => (Success, [])) ups ++ [(Success, digest); (Success, more)])) /\
    KeccakSpec.bits_of digest = fips202 a (message ups) (digest_of a) /\
    KeccakSpec.bits_of (digest ++ more) = fips202 a (message ups) (digest_of a + N.to_nat q)) /\
  (exists fuel0, forall fuel, fuel0 <= fuel -> exists digest more,
    macro_session opt64 fuel m a (map update ups ++ [Final; Squeeze q]) = Ok (Some (map (fun _ => (Success, [])) ups ++ [(Success, digest); (Success, more)])) /\
    KeccakSpec.bits_of digest = fips202 a (message ups) (digest_of a) /\
    KeccakSpec.bits_of (digest ++ more) = fips202 a (message ups) (digest_of a + N.to_nat q)).
Proof.
  intros J m a ups q Hm Hu Hw Hq Ho. split.
  - apply (any_fips202 (avx2_any J) _ 200 (avx2_any_simulates J) (le_n 200) ltac:(lia)); assumption.
  - apply (any_fips202 opt64 _ 199 opt64_any_simulates ltac:(lia) ltac:(lia)); assumption.
Qed.
Print Assumptions C81_fips202_partial.
(** The one-shot function, for inputs of less than 2^63 bytes (no object is larger) and outputs of any length *)
Theorem C81_function : forall J m rate capacity input suffix outlen, List.length m = 200 ->
  (capacity < 2 ^ 32)%N -> (suffix < 256)%N -> sound rate capacity suffix -> Forall (fun b => b < 256)%N input -> (N.of_nat (List.length input) < 2 ^ 63)%N ->
  (exists g fuel0, is_sponge (N.to_nat rate) (KeccakSpec.bits_of input ++ suffix_bits suffix) g /\ forall fuel, fuel0 <= fuel ->
    sponge_function (avx2_any J) fuel m rate capacity input suffix outlen = Ok (Some (outputs g 0 outlen))) /\
  ((rate < 1600)%N -> exists g fuel0, is_sponge (N.to_nat rate) (KeccakSpec.bits_of input ++ suffix_bits suffix) g /\ forall fuel, fuel0 <= fuel ->
    sponge_function opt64 fuel m rate capacity input suffix outlen = Ok (Some (outputs g 0 outlen))).
Proof.
  intros J m rate capacity input suffix outlen Hm Hc Hs S Hi Si. pose proof (sound_bytes _ _ _ S) as [Hr _]. split.
  - apply (any_function (avx2_any J) _ 200 (avx2_any_simulates J) (le_n 200)); try assumption. lia.
  - intros Hr'. assert (Q : (rate / 8 < 200)%N) by (apply N.div_lt_upper_bound; [discriminate|exact Hr']). apply (any_function opt64 _ 199 opt64_any_simulates ltac:(lia)); try assumption. lia.
Qed.
Print Assumptions C81_function.
(** Bad parameters: refused before the state is touched, whatever the implementation *)
Theorem C81_refused : forall P m rate capacity hashbitlen suffix fuel cs input outlen, (capacity < 2 ^ 32)%N -> ~ sound rate capacity suffix ->
  hash_session P fuel m rate capacity hashbitlen suffix cs = Ok None /\ sponge_function P fuel m rate capacity input suffix outlen = Ok None.
Proof. exact any_refused. Qed.
Print Assumptions C81_refused.
(** A rate of 1600 bits is accepted, but with the C code a whole block of output reads beyond the state *)
Theorem C81_full_rate_refuted : forall m suffix fuel, List.length m = 200 -> (0 < suffix < 256)%N ->
  hash_session opt64 (S fuel) m 1600 0 0 suffix [Final; Squeeze 1600] = UB OutOfBounds /\ hash_session opt64 (S fuel) m 1600 0 1600 suffix [Final] = UB OutOfBounds.
Proof. exact opt64_full_rate. Qed.
Print Assumptions C81_full_rate_refuted.

(** A rate of 125 bytes, which are no whole lanes; 24 and 13 bits; a digest of 32 bytes, more output, a late update, 3 bits of output *)
Definition an_input : list (bytes * N) := [([1; 2; 3]%N, 24%N); ([0xFF; 0x1F]%N, 13%N)].
Definition more : list call := [Squeeze 2048; Update [1%N] 8; Squeeze 3; Squeeze 8].
Example C81_case : exists l fuel, hash_session (avx2_any some_junk) fuel (repeat 0xA5%N 200) 1000 600 256 6 (map update an_input ++ Final :: more) = Ok (Some l) /\
  map (fun a => (fst a, List.length (snd a))) l = [(Success, 0); (Success, 0); (Success, 32); (Success, 256); (Fail, 0); (Fail, 0); (Success, 1)].
Proof.
  destruct (C81_avx2_partial some_junk (repeat 0xA5%N 200) 1000 600 256 6 an_input more) as (g & fuel0 & _ & E); try reflexivity.
  - repeat split; discriminate || reflexivity.
  - discriminate.
  - repeat constructor; try discriminate.
  - repeat constructor.
  - repeat constructor; discriminate.
  - repeat constructor.
  - eexists. exists fuel0. split; [exact (E fuel0 (le_n _))|]. reflexivity.
Qed.
