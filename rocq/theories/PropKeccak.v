(** C49: hashing through kdf_shake.h over keccak/opt64 computes SHAKE128 and SHAKE256 of FIPS 202.  Specification:
    KeccakSpec, the standard on bits (theta, rho, pi, chi, iota, the round constants' shift register, pad10*1, sponge);
    bits_of: a byte string as the bit string of FIPS 202, B.1. *)
From Coq Require Import Arith NArith List Bool Lia.
From Verif Require Import Prelude SpongeModel SpongeApi KeccakModel KeccakSpec KeccakHash KeccakBytes.
Import ListNotations.

(** The permutation, written with lanes, unrolled rounds and the theta column sums carried along, is KECCAK-f[1600] *)
Theorem C49_permutation : forall st, is_bytes st -> length st = 200 ->
  bits_of (permute_24rounds st) = keccak_f (bits_of st) /\ is_bytes (permute_24rounds st) /\ length (permute_24rounds st) = 200.
Proof. exact (fun st H L => conj (permute_bits st H L) (conj (permute_bytes st) (permute_length st))). Qed.
Print Assumptions C49_permutation.

(** init (digest size 32 or other), updates, final, squeezes: the output is SHAKE128, respectively SHAKE256, of the input *)
Theorem C49_hash : forall digest chunks lens, Forall is_bytes chunks ->
  Forall (fun d => (N.of_nat (length d) + 200 <= 2 ^ 32)%N) chunks -> Forall (fun n => (N.of_nat n + 200 <= 2 ^ 32)%N) lens ->
  exists fuel0, forall fuel, fuel0 <= fuel -> exists outs,
    hash_run permute_24rounds fuel digest chunks lens = Ok outs /\ map (@length N) outs = lens /\
    bits_of (concat outs) = (if digest =? 32 then SHAKE128 else SHAKE256) (bits_of (concat chunks)) (8 * list_sum lens).
Proof. exact hash_fips. Qed.
Print Assumptions C49_hash.

(** the same for each lane of the four-way functions *)
Theorem C49_hash_x4 : forall digest (chunks : list (list bytes)) lens,
  Forall (fun ds => length ds = 4 /\ Forall is_bytes ds /\ exists L, Forall (fun d => length d = L) ds /\ (N.of_nat L + 200 <= 2 ^ 32)%N) chunks ->
  Forall (fun n => (N.of_nat n + 200 <= 2 ^ 32)%N) lens ->
  exists fuel0, forall fuel, fuel0 <= fuel -> exists outs, hash_run_x4 permute_24rounds fuel digest chunks lens = Ok outs /\
    forall i, i < 4 -> map (fun o => length (nth i o [])) outs = lens /\
      bits_of (concat (map (fun o => nth i o []) outs)) =
      (if digest =? 32 then SHAKE128 else SHAKE256) (bits_of (concat (map (fun ds => nth i ds []) chunks))) (8 * list_sum lens).
Proof. exact hash_fips4. Qed.
Print Assumptions C49_hash_x4.

(** Known answers: SHAKE of the empty string, squeezed in two pieces (128) and with an empty update (256); the standard *)
Example C49_case :
  hash_run permute_24rounds 100 32 [] [5; 11] =
    Ok [[0x7F; 0x9C; 0x2B; 0xA4; 0xE8]%N; [0x8F; 0x82; 0x7D; 0x61; 0x60; 0x45; 0x50; 0x76; 0x05; 0x85; 0x3E]%N] /\
  hash_run permute_24rounds 100 64 [[]] [16] =
    Ok [[0x46; 0xB9; 0xDD; 0x2B; 0x0B; 0xA8; 0x8D; 0x13; 0x23; 0x3B; 0x3F; 0xEB; 0x74; 0x3E; 0xEB; 0x24]%N].
Proof. exact shake_empty. Qed.
Example C49_spec_case : SHAKE128 [] (8 * 4) = bits_of [0x7F; 0x9C; 0x2B; 0xA4]%N.
Proof. exact shake_empty_spec. Qed.
