(** Hashing through kdf_shake.h with the permutation of keccak/opt64 is SHAKE of FIPS 202. *)
From Coq Require Import Arith NArith List Bool Lia.
From Verif Require Import Prelude SpongeModel SpongeSpec SpongeFacts SpongeApi Sponge4Facts SpongeCases KeccakModel KeccakSpec KeccakFacts KeccakBytes KeccakShake.
Import ListNotations.

Lemma concat_bytes l : Forall is_bytes l -> is_bytes (concat l).
Proof. induction 1; cbn [concat]; [constructor|apply Forall_app; split; assumption]. Qed.
Lemma permute_keeps : forall st : bytes, length st = 200 -> length (permute_24rounds st) = 200.
Proof. intros st _. apply permute_length. Qed.
Lemma hash_fips digest chunks lens : Forall is_bytes chunks ->
  Forall (fun d => (N.of_nat (length d) + 200 <= 2 ^ 32)%N) chunks -> Forall (fun n => (N.of_nat n + 200 <= 2 ^ 32)%N) lens ->
  exists fuel0, forall fuel, fuel0 <= fuel -> exists outs,
    hash_run permute_24rounds fuel digest chunks lens = Ok outs /\ map (@length N) outs = lens /\
    bits_of (concat outs) = (if digest =? 32 then SHAKE128 else SHAKE256) (bits_of (concat chunks)) (8 * list_sum lens).
Proof.
  intros Hb Hc Hl. destruct (one_stream' permute_24rounds permute_keeps digest chunks lens Hc Hl) as (fuel0 & H). exists fuel0. intros fuel Hf.
  destruct (H fuel Hf) as (outs & E1 & E2 & E3). exists outs. split; [exact E1|]. split; [exact E2|].
  refine (eq_trans (f_equal bits_of E3) _). apply shake_is_fips. apply concat_bytes. exact Hb.
Qed.
Lemma pieces_lengths g : forall lens off, map (@length N) (pieces g off lens) = lens.
Proof. induction lens as [|n lens IH]; intros off; cbn [pieces map]; [reflexivity|]. rewrite map_length, seq_length. f_equal. apply IH. Qed.
Lemma hash_fips4 digest (chunks : list (list bytes)) lens :
  Forall (fun ds => length ds = 4 /\ Forall is_bytes ds /\ exists L, Forall (fun d => length d = L) ds /\ (N.of_nat L + 200 <= 2 ^ 32)%N) chunks ->
  Forall (fun n => (N.of_nat n + 200 <= 2 ^ 32)%N) lens ->
  exists fuel0, forall fuel, fuel0 <= fuel -> exists outs, hash_run_x4 permute_24rounds fuel digest chunks lens = Ok outs /\
    forall i, i < 4 -> map (fun o => length (nth i o [])) outs = lens /\
      bits_of (concat (map (fun o => nth i o []) outs)) =
      (if digest =? 32 then SHAKE128 else SHAKE256) (bits_of (concat (map (fun ds => nth i ds []) chunks))) (8 * list_sum lens).
Proof.
  intros Hc Hl. assert (Hc' : Forall (fun ds => length ds = 4 /\ exists L, Forall (fun d => length d = L) ds /\ (N.of_nat L + 200 <= 2 ^ 32)%N) chunks).
  { eapply Forall_impl; [|exact Hc]. cbn beta. intros ds (A & B & C). split; assumption. }
  destruct (four_outputs' permute_24rounds permute_keeps digest chunks lens Hc' Hl) as (fuel0 & H). exists fuel0. intros fuel Hf.
  destruct (H fuel Hf) as (outs & E1 & E2). exists outs. split; [exact E1|]. intros i Hi. specialize (E2 i Hi). split.
  - rewrite <- (map_map (fun o => nth i o []) (@length N)). rewrite E2. apply pieces_lengths.
  - rewrite E2. refine (eq_trans (f_equal bits_of (pieces_concat _ lens 0)) _). apply shake_is_fips. apply concat_bytes.
    rewrite Forall_forall in *. intros d Hd. apply in_map_iff in Hd. destruct Hd as (ds & <- & Hin). destruct (Hc ds Hin) as (A & B & _). rewrite Forall_forall in B. apply B. apply nth_In. exact (eq_ind_r (fun k => i < k) Hi A).
Qed.
Lemma shake_empty :
  hash_run permute_24rounds 100 32 [] [5; 11] =
    Ok [[0x7F; 0x9C; 0x2B; 0xA4; 0xE8]%N; [0x8F; 0x82; 0x7D; 0x61; 0x60; 0x45; 0x50; 0x76; 0x05; 0x85; 0x3E]%N] /\
  hash_run permute_24rounds 100 64 [[]] [16] =
    Ok [[0x46; 0xB9; 0xDD; 0x2B; 0x0B; 0xA8; 0x8D; 0x13; 0x23; 0x3B; 0x3F; 0xEB; 0x74; 0x3E; 0xEB; 0x24]%N].
Proof. split; vm_compute; reflexivity. Qed.
Lemma shake_empty_spec : SHAKE128 [] (8 * 4) = bits_of [0x7F; 0x9C; 0x2B; 0xA4]%N.
Proof.
  change (SHAKE128 [] (8 * 4)) with ((if true then SHAKE128 else SHAKE256) (bits_of []) (8 * 4)). rewrite <- shake_is_fips by constructor.
  assert (E : map (shake permute_24rounds true []) (seq 0 4) = [0x7F; 0x9C; 0x2B; 0xA4]%N) by (vm_compute; reflexivity). rewrite E. reflexivity.
Qed.
