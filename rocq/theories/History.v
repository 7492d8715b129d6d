(** Histories of API calls: the only state that survives a call is the static field state of GF2E (field.cpp:137-140). *)
From Coq Require Import Arith NArith ZArith List Bool Lia.
From Verif Require Import Prelude FieldModel Instances HashModel TreeModel BanquetModel.
Import ListNotations.

(** a call of the API with its arguments (banquet.h:11-29, banquet_instances.h).  The instance is whatever structure the
    caller passes, built in or not; fuel and garb are the execution's bound and indeterminate bytes. *)
Inductive call : Type :=
| CKeygen (fuel : nat) (I : instance) (r : rng)
| CSign (fuel : nat) (garb : nat -> N) (I : instance) (kp : keypair) (msg : bytes)
| CVerify (fuel : nat) (garb : nat -> N) (I : instance) (pk : bytes) (sig : signature) (msg : bytes)
| CSerialize (I : instance) (sig : signature)
| CDeserialize (fuel : nat) (garb : nat -> N) (I : instance) (ser : bytes)
| CInstance (p : Z).

(** the process state after a call: only sign and verify call init_extension_field (banquet.cpp:294, 783) *)
Definition step (H : oracle) (st : fstate) (x : call) : fstate :=
  match x with
  | CSign fuel garb J kp msg => fst (sign H fuel garb st J kp msg)
  | CVerify fuel garb J pk sig msg => fst (verify H fuel garb st J pk sig msg)
  | CKeygen _ _ _ | CSerialize _ _ | CDeserialize _ _ _ _ | CInstance _ => st
  end.
(** the state of a process that made these calls; a fresh process has no field, field.cpp:137-140 *)
Definition after (H : oracle) (h : list call) : fstate := fold_left (step H) h None.

Lemma with_field_snd {A} st st' lam (f : fctx -> res A) : snd (with_field st lam f) = snd (with_field st' lam f).
Proof. unfold with_field, st_init. destruct (init_extension_field lam) as [x|e|u|]; [reflexivity|destruct st, st'; reflexivity..]. Qed.
Lemma sign_state H fuel garb st st' I kp msg : snd (sign H fuel garb st I kp msg) = snd (sign H fuel garb st' I kp msg).
Proof. apply with_field_snd. Qed.
Lemma verify_state H fuel garb st st' I pk sig msg : snd (verify H fuel garb st I pk sig msg) = snd (verify H fuel garb st' I pk sig msg).
Proof. apply with_field_snd. Qed.
