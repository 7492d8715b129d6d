(** C53: all builds hash alike.  The default build (AVX2 assembly and four-way vector code) and the portable build (opt64)
    answer every sequence of calls of kdf_shake.h as the hash contexts of HashModel do with H := FIPS202, the SHAKE functions
    of FIPS 202.  The models of key generation, signing, verification, trees, tapes and challenges make their hash calls on
    those contexts, and the theorems about them hold for every H; so they hold with H := FIPS202 for either build, and the
    two builds produce the same signatures and verify each other's.
    Specification: BuildSpec (FIPS202; hash_calls, hash_calls_x4: init, updates, final, squeezes) and KeccakSpec. *)
From Coq Require Import Arith NArith List Bool Lia.
From Verif Require Import Prelude HashModel KeccakSpec SnpSponge Opt64Model Opt64Facts Avx2Model Avx2Mem Avx2Sim Simd256Model Simd256Facts BuildSpec BuildFacts
  Instances BanquetModel BanquetPure BanquetVerify Serialize BanquetApi SignFacts X86Model FreeSpec.
Import ListNotations.

(** m, m': the 200 bytes of the state before initialisation in the two builds; J: the registers, as a function of the state *)
Theorem C53_scalar : forall J m m' digest chunks lens, length m = 200 -> length m' = 200 -> Forall is_bytes chunks ->
  Forall (fun d => (N.of_nat (length d) + 200 <= 2 ^ 32)%N) chunks -> Forall (fun n => (N.of_nat n + 200 <= 2 ^ 32)%N) lens ->
  exists fuel0, forall fuel, fuel0 <= fuel ->
    g_hash_run (avx2 J) m fuel digest chunks lens = Ok (hash_calls FIPS202 digest chunks lens) /\
    g_hash_run opt64 m' fuel digest chunks lens = Ok (hash_calls FIPS202 digest chunks lens).
Proof.
  exact (fun J m m' digest chunks lens Hm Hm' Hb Hc Hl =>
    both_builds (build_scalar (avx2 J) 200 rel (avx2_simulates J) m digest chunks lens Hm Hb Hc Hl)
                (build_scalar opt64 200 same opt64_simulates m' digest chunks lens Hm' Hb Hc Hl)).
Qed.
Print Assumptions C53_scalar.

(** four inputs at a time; P: the addresses of the context and of the two tables *)
Theorem C53_four : forall P m m' digest (chunks : list (list bytes)) lens,
  (at_states P mod 32 = 0 /\ at_rho8 P mod 32 = 0 /\ at_rho56 P mod 32 = 0)%N -> length m = 800 -> length m' = 800 ->
  Forall (fun ds => length ds = 4 /\ Forall is_bytes ds /\ exists L, Forall (fun d => length d = L) ds /\ (N.of_nat L + 200 <= 2 ^ 32)%N) chunks ->
  Forall (fun n => (N.of_nat n + 200 <= 2 ^ 32)%N) lens ->
  exists fuel0, forall fuel, fuel0 <= fuel ->
    g_hash_run_x4 (simd256 P) m fuel digest chunks lens = Ok (hash_calls_x4 FIPS202 digest chunks lens) /\
    g_hash_run_x4 opt64x4 m' fuel digest chunks lens = Ok (hash_calls_x4 FIPS202 digest chunks lens).
Proof.
  exact (fun P m m' digest chunks lens A Hm Hm' Hc Hl =>
    both_builds (build_four (simd256 P) 800 lay4 (simd256_simulates P A) m digest chunks lens Hm Hc Hl)
                (build_four opt64x4 800 same4 opt64x4_simulates m' digest chunks lens Hm' Hc Hl)).
Qed.
Print Assumptions C53_four.

(** What one build signs, any build accepts: C01 with the hash function both builds compute. *)
Theorem C53_interoperable : forall I kf r kp msg fuel garb st st' sig,
  regular I -> rng_bytes r -> keygen kf I r = Ok kp -> sign FIPS202 fuel garb st I kp msg = (st', Ok sig) ->
  forall fuel2 garb2 st2, fuel <= fuel2 -> snd (verify FIPS202 fuel2 garb2 st2 I (snd kp) sig msg) = Ok true.
Proof. exact (honest_verify FIPS202). Qed.
Print Assumptions C53_interoperable.

(** SHAKE128 of the empty string on the contexts of HashModel, and by the portable code *)
Example C53_case : hash_calls FIPS202 32 [] [2; 3] = [[0x7F; 0x9C]%N; [0x2B; 0xA4; 0xE8]%N] /\
  g_hash_run opt64 (repeat 0xA5%N 200) 100 32 [] [2; 3] = Ok [[0x7F; 0x9C]%N; [0x2B; 0xA4; 0xE8]%N].
Proof. split; [exact empty_calls|vm_compute; reflexivity]. Qed.
Example C53_case_four : hash_calls_x4 FIPS202 64 [[[1]; [2]; [3]; [4]]%N] [3] = [map (fun b => concat (hash_calls FIPS202 64 [[b]] [3])) [1; 2; 3; 4]%N] /\
  hash_calls FIPS202 64 [[1%N]] [3] <> hash_calls FIPS202 64 [[2%N]] [3].
Proof. split; [cbn -[FIPS202 stream]; rewrite !app_nil_r; reflexivity|]. exact two_inputs. Qed.
