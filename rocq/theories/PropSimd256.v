(** C52: the four-way code of keccak/avx2/KeccakP-1600-times4-SIMD256.c, which is what is built by default, under the four-way
    sponge and kdf_shake.h computes SHAKE of FIPS 202 for each of the four inputs, whatever the memory of the hash context held
    before, provided the context and the two tables rho8 and rho56 lie at multiples of 32.
    Specification: KeccakSpec; bits_of: a byte string as the bit string of FIPS 202, B.1. *)
From Coq Require Import Arith NArith List Bool Lia.
From Verif Require Import Prelude SpongeModel SpongeApi KeccakSpec SnpSponge Simd256Model Simd256Facts SnpShake.
Import ListNotations.

(** m: the 800 bytes of the four states before initialisation *)
Theorem C52_simd256 : forall P m digest (chunks : list (list bytes)) lens,
  (at_states P mod 32 = 0 /\ at_rho8 P mod 32 = 0 /\ at_rho56 P mod 32 = 0)%N -> length m = 800 ->
  Forall (fun ds => length ds = 4 /\ Forall is_bytes ds /\ exists L, Forall (fun d => length d = L) ds /\ (N.of_nat L + 200 <= 2 ^ 32)%N) chunks ->
  Forall (fun n => (N.of_nat n + 200 <= 2 ^ 32)%N) lens ->
  exists fuel0, forall fuel, fuel0 <= fuel -> exists outs, g_hash_run_x4 (simd256 P) m fuel digest chunks lens = Ok outs /\
    forall i, i < 4 -> map (fun o => length (nth i o [])) outs = lens /\
      bits_of (concat (map (fun o => nth i o []) outs)) =
      (if digest =? 32 then SHAKE128 else SHAKE256) (bits_of (concat (map (fun ds => nth i ds []) chunks))) (8 * list_sum lens).
Proof. exact (fun P m digest chunks lens A => plsnp_shake (simd256 P) 800 lay4 (simd256_simulates P A) m digest chunks lens). Qed.
Print Assumptions C52_simd256.

(** The tables are arrays of uint64_t with no alignment attribute.  C lets the linker put one at an address that is a multiple
    of 8 only; then the first permutation faults, whatever is hashed. *)
Theorem C52_alignment_refuted : exists P, (at_states P mod 32 = 0 /\ at_rho8 P mod 8 = 0 /\ at_rho56 P mod 8 = 0)%N /\
  forall m, permute_all P m = UB OutOfBounds.
Proof. exists (mkPlace 0x7000 0x4008 0x4020). split; [repeat split; reflexivity|]. intros m. reflexivity. Qed.
Print Assumptions C52_alignment_refuted.

(** four states over memory full of 0xA5; SHAKE128 of the empty string *)
Example C52_case : g_hash_run_x4 (simd256 (mkPlace 0x7000 0x4000 0x4020)) (repeat 0xA5%N 800) 100 32 [[[]; []; []; []]] [16] =
  Ok [repeat [0x7F; 0x9C; 0x2B; 0xA4; 0xE8; 0x8F; 0x82; 0x7D; 0x61; 0x60; 0x45; 0x50; 0x76; 0x05; 0x85; 0x3E]%N 4].
Proof. vm_compute. reflexivity. Qed.
(** different inputs of 203 bytes, in two chunks, output in two parts: as the opt64 code computes them one by one *)
Definition case_in (i : nat) (n : nat) : bytes := map (fun k => N.of_nat ((7 * k + 50 * i) mod 256)) (seq 0 n).
Example C52_case_mixed : exists a b c d a' b' c' d',
  g_hash_run_x4 (simd256 (mkPlace 0x7000 0x4000 0x4020)) (repeat 0xA5%N 800) 100 64 [map (fun i => case_in i 3) (seq 0 4); map (fun i => case_in i 200) (seq 0 4)] [5; 140] =
    Ok [[a; b; c; d]; [a'; b'; c'; d']] /\ a <> b /\ length a = 5 /\ length d' = 140 /\
  g_hash_run Opt64Model.opt64 (repeat 0%N 200) 100 64 [case_in 0 3; case_in 0 200] [5; 140] = Ok [a; a'] /\
  g_hash_run Opt64Model.opt64 (repeat 0%N 200) 100 64 [case_in 3 3; case_in 3 200] [5; 140] = Ok [d; d'].
Proof. eexists _, _, _, _, _, _, _, _. split; [vm_compute; reflexivity|]. split; [intros C; discriminate C|]. split; [reflexivity|]. split; [reflexivity|]. split; vm_compute; reflexivity. Qed.
