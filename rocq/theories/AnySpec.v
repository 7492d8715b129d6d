(** Specification of verification for any number of parties (C58): as SigSpec, except that the hidden parties are the first
    candidates of the output for h_3 that are below the number of parties. *)
From Coq Require Import Arith NArith List.
From Verif Require Import Prelude FieldModel Instances HashModel BanquetModel SigSpec ChallengeFacts.
Import ListNotations.

(** the hidden parties are the first candidates below the number of parties, one for each repetition *)
Definition drawn_parties (H : oracle) (I : instance) (h3 : bytes) (ms : list nat) : Prop :=
  length ms = num_rounds I /\ exists M, ms = filter (fun p => p <? num_parties I) (map (party_candidate H I h3) (seq 0 M)).
(** X e are the values of repetition e *)
Record is_transcript_any (H : oracle) (I : instance) (c : fctx) (pk : bytes) (sig : signature) (X : nat -> rep_values) : Prop := mkTrAny {
  ta_points : exists M, map (fun e => x_point (X e)) (seq 0 (num_rounds I)) = filter (fun R => negb (forbidden I c R)) (map (candidate H I sig) (seq 0 M));
  ta_hidden : drawn_parties H I (s_h3 sig) (map (fun e => x_hidden (X e)) (seq 0 (num_rounds I)));
  ta_reps : forall e, e < num_rounds I ->
    rep_open H I c (s_salt sig) (s_h1 sig) (slice pk 0 (pt_size I)) (slice pk (pt_size I) (pt_size I)) e (pf_of sig e) (X e) }.
