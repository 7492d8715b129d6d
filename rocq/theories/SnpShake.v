(** An implementation that simulates the byte-wise permutation computes SHAKE. *)
From Coq Require Import Arith NArith List Bool Lia.
From Verif Require Import Prelude SpongeModel SpongeApi KeccakModel KeccakSpec KeccakHash KeccakBytes SnpSponge SnpSim SnpSim4.
Import ListNotations.

Lemma chunk_small (d : bytes) : (N.of_nat (length d) + 200 <= 2 ^ 32)%N -> small d.
Proof. unfold small. lia. Qed.
Lemma snp_shake P size R (SIM : simulates P size R permute_24rounds) : forall m digest chunks lens, length m = size -> Forall is_bytes chunks ->
  Forall (fun d => (N.of_nat (length d) + 200 <= 2 ^ 32)%N) chunks -> Forall (fun n => (N.of_nat n + 200 <= 2 ^ 32)%N) lens ->
  exists fuel0, forall fuel, fuel0 <= fuel -> exists outs,
    g_hash_run P m fuel digest chunks lens = Ok outs /\ map (@length N) outs = lens /\
    bits_of (concat outs) = (if digest =? 32 then SHAKE128 else SHAKE256) (bits_of (concat chunks)) (8 * list_sum lens).
Proof.
  intros m digest chunks lens Hm Hb Hc Hl. destruct (hash_fips digest chunks lens Hb Hc Hl) as (fuel0 & H). exists fuel0. intros fuel Hf.
  destruct (H fuel Hf) as (outs & E1 & E2 & E3). exists outs. split; [|split; assumption]. exact (sim_hash_run P size R _ SIM m fuel digest chunks lens outs Hm Hb (Forall_impl _ (fun d => chunk_small d) Hc) E1).
Qed.
Lemma plsnp_shake Q size R (SIM : simulates4 Q size R permute_24rounds) : forall m digest (chunks : list (list bytes)) lens, length m = size ->
  Forall (fun ds => length ds = 4 /\ Forall is_bytes ds /\ exists L, Forall (fun d => length d = L) ds /\ (N.of_nat L + 200 <= 2 ^ 32)%N) chunks ->
  Forall (fun n => (N.of_nat n + 200 <= 2 ^ 32)%N) lens ->
  exists fuel0, forall fuel, fuel0 <= fuel -> exists outs, g_hash_run_x4 Q m fuel digest chunks lens = Ok outs /\
    forall i, i < 4 -> map (fun o => length (nth i o [])) outs = lens /\
      bits_of (concat (map (fun o => nth i o []) outs)) =
      (if digest =? 32 then SHAKE128 else SHAKE256) (bits_of (concat (map (fun ds => nth i ds []) chunks))) (8 * list_sum lens).
Proof.
  intros m digest chunks lens Hm Hc Hl. destruct (hash_fips4 digest chunks lens Hc Hl) as (fuel0 & H). exists fuel0. intros fuel Hf.
  destruct (H fuel Hf) as (outs & E1 & E2). exists outs. split; [|exact E2]. refine (sim4_hash_run Q size R _ SIM m fuel digest chunks lens outs Hm _ E1).
  apply Forall_forall. intros ds Hds. rewrite Forall_forall in Hc. destruct (Hc ds Hds) as (A & B & _). split; assumption.
Qed.
