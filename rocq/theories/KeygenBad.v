(** The random sources and runs that refute C44 as stated. *)
From Coq Require Import Arith NArith ZArith List Bool Lia.
From Verif Require Import Prelude Instances AesSpec AesApi AesShares BanquetModel BanquetApi KeygenFacts PropSign.
Import ListNotations.

Definition bad_rng : rng := fun i =>
  match i with
  | 0 => (true, snd (ex_rng 0)) | 1 => (true, snd (ex_rng 0))
  | 2 => (false, [201; 202; 203; 204; 206]%N) | _ => (true, snd (ex_rng 1))
  end.
Lemma ex_rng_bytes : rng_bytes ex_rng.
Proof. intros i. unfold ex_rng. cbn [snd]. apply Forall_map, Forall_forall. intros j _. destruct (Nat.even i); apply N.mod_lt; discriminate. Qed.
Lemma bad_keygen : exists key pk, rng_bytes bad_rng /\ keygen 2 I1 bad_rng = Ok (key, pk) /\
  firstn 5 key = snd (bad_rng 2) /\ fst (bad_rng 2) = false /\
  forall i p, p < 5 -> fst (bad_rng i) = true -> nth p key 0%N <> nth p (snd (bad_rng i)) 0%N.
Proof.
  destruct (keygen 2 I1 bad_rng) as [[key pk]| | |] eqn:E; [|exfalso; revert E; vm_compute; discriminate..].
  exists key, pk. vm_compute in E. injection E as <- <-.
  split. { intros [|[|[|i]]]; cbn [bad_rng snd]; try apply ex_rng_bytes. repeat constructor. }
  split; [reflexivity|]. split; [reflexivity|]. split; [reflexivity|].
  intros [|[|[|i]]] p Hp; cbn [bad_rng fst]; intros Hf; try discriminate Hf; cbn [bad_rng snd];
    destruct p as [|[|[|[|[|p]]]]]; try lia; vm_compute; discriminate.
Qed.
Lemma bad_plaintext : exists r key pk, rng_bytes r /\ (forall i, Nat.even i = false -> r i = (false, [])) /\
  keygen 1 I1 r = Ok (key, pk) /\ firstn (pt_size I1) pk = zeros (pt_size I1).
Proof.
  set (r := fun i => if Nat.even i then (true, map (fun j => (11 * N.of_nat j * N.of_nat j + 3 * N.of_nat j + 1) mod 256)%N (seq 0 16)) else (false, [])).
  exists r. destruct (keygen 1 I1 r) as [[key pk]| | |] eqn:E; [|exfalso; revert E; vm_compute; discriminate..].
  exists key, pk. vm_compute in E. injection E as <- <-. split; [|split; [|split; reflexivity]].
  - intros i. unfold r. destruct (Nat.even i); cbn [snd]; [|constructor]. apply Forall_map, Forall_forall. intros j _. apply N.mod_lt. discriminate.
  - intros i Hi. unfold r. rewrite Hi. reflexivity.
Qed.
