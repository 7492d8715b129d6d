(** C50: the whole of keccak/opt64 - lane-wise memory accesses, the relaned byte macros, the fast absorbing loop and the
    four-state fallback - under the sponge and kdf_shake.h computes SHAKE of FIPS 202, whatever the memory of the hash
    context held before.  Specification: KeccakSpec; bits_of: a byte string as the bit string of FIPS 202, B.1. *)
From Coq Require Import Arith NArith List Bool Lia.
From Verif Require Import Prelude SpongeModel SpongeApi KeccakSpec SnpSponge Opt64Model Opt64Facts SnpShake.
Import ListNotations.

(** m: the 200 bytes of the state before initialisation *)
Theorem C50_opt64 : forall m digest chunks lens, length m = 200 -> Forall is_bytes chunks ->
  Forall (fun d => (N.of_nat (length d) + 200 <= 2 ^ 32)%N) chunks -> Forall (fun n => (N.of_nat n + 200 <= 2 ^ 32)%N) lens ->
  exists fuel0, forall fuel, fuel0 <= fuel -> exists outs,
    g_hash_run opt64 m fuel digest chunks lens = Ok outs /\ map (@length N) outs = lens /\
    bits_of (concat outs) = (if digest =? 32 then SHAKE128 else SHAKE256) (bits_of (concat chunks)) (8 * list_sum lens).
Proof. exact (snp_shake opt64 200 same opt64_simulates). Qed.
Print Assumptions C50_opt64.

(** m: the 800 bytes of the four states before initialisation *)
Theorem C50_opt64_x4 : forall m digest (chunks : list (list bytes)) lens, length m = 800 ->
  Forall (fun ds => length ds = 4 /\ Forall is_bytes ds /\ exists L, Forall (fun d => length d = L) ds /\ (N.of_nat L + 200 <= 2 ^ 32)%N) chunks ->
  Forall (fun n => (N.of_nat n + 200 <= 2 ^ 32)%N) lens ->
  exists fuel0, forall fuel, fuel0 <= fuel -> exists outs, g_hash_run_x4 opt64x4 m fuel digest chunks lens = Ok outs /\
    forall i, i < 4 -> map (fun o => length (nth i o [])) outs = lens /\
      bits_of (concat (map (fun o => nth i o []) outs)) =
      (if digest =? 32 then SHAKE128 else SHAKE256) (bits_of (concat (map (fun ds => nth i ds []) chunks))) (8 * list_sum lens).
Proof. exact (plsnp_shake opt64x4 800 same4 opt64x4_simulates). Qed.
Print Assumptions C50_opt64_x4.

(** SHAKE128 and SHAKE256 of the empty string over memory full of 0xA5, and four lanes of one-byte inputs *)
Example C50_case :
  g_hash_run opt64 (repeat 0xA5%N 200) 100 32 [] [5; 11] =
    Ok [[0x7F; 0x9C; 0x2B; 0xA4; 0xE8]%N; [0x8F; 0x82; 0x7D; 0x61; 0x60; 0x45; 0x50; 0x76; 0x05; 0x85; 0x3E]%N] /\
  g_hash_run opt64 (repeat 0xA5%N 200) 100 64 [[]] [16] =
    Ok [[0x46; 0xB9; 0xDD; 0x2B; 0x0B; 0xA8; 0x8D; 0x13; 0x23; 0x3B; 0x3F; 0xEB; 0x74; 0x3E; 0xEB; 0x24]%N].
Proof. split; vm_compute; reflexivity. Qed.
Example C50_case_x4 : exists a b c,
  g_hash_run_x4 opt64x4 (repeat 0xA5%N 800) 100 32 [[[1]; [2]; [1]; [3]]%N] [2] = Ok [[a; b; a; c]] /\ length a = 2 /\ a <> b /\
  g_hash_run opt64 (repeat 0%N 200) 100 32 [[1%N]] [2] = Ok [a].
Proof. eexists _, _, _. split; [vm_compute; reflexivity|]. split; [reflexivity|]. split; [intros C; discriminate C|vm_compute; reflexivity]. Qed.
