(** Property theorems about the inputs of the hash function (C47).  DomainSpec.v lists the uses of the hash function
    and says what is hashed in each. *)
From Coq Require Import Arith NArith List Bool Lia.
From Verif Require Import Prelude FieldModel Instances HashModel TreeModel BanquetModel BanquetApi DomainSpec DomainFacts.
Import ListNotations.

(** C47: the list of uses describes the code: a seed commitment is the digest of [Commit], *)
Theorem C47_commit_input : forall H I seed salt rep party,
  commit_to_party_seed H I seed salt rep party = stream H (digest_size I =? 32) (hashed (Commit salt rep party seed)) 0 (digest_size I).
Proof. exact commit_input. Qed.
Print Assumptions C47_commit_input.
(** a random tape is the hash of [Tape], *)
Theorem C47_tape_input : forall H I seed salt rep party,
  generate_tape H I salt rep party seed = stream H (2 * length seed =? 32) (hashed (Tape salt rep party seed)) 0 (tape_size I).
Proof. exact tape_input. Qed.
Print Assumptions C47_tape_input.
(** the two children of a tree node are the hash of [Node], *)
Theorem C47_node_input : forall H salt rep seed k, length seed <= 32 ->
  expand_seed H salt rep (seed ++ zeros (2 * length seed), []) (SData 0 (length seed)) k (SData (length seed) (2 * length seed)) =
  Ok (seed ++ stream H (2 * length seed =? 32) (hashed (Node salt rep k seed)) 0 (2 * length seed), []).
Proof. exact node_input. Qed.
Print Assumptions C47_node_input.
(** h_1, h_2 and h_3 are the digests of [Phase1], [Phase2] and [Phase3], *)
Theorem C47_phase_inputs : forall H I c salt pk msg h1 h2 coms kds tds bcasts ds o vs, builtin I -> init_extension_field (lambda I) = Ok c ->
  length salt = 32 -> length pk = 2 * pt_size I -> length h1 = digest_size I -> length h2 = digest_size I ->
  table (num_rounds I) (num_parties I) (digest_size I) coms -> column (num_rounds I) (key_size (i_aes I)) kds ->
  column (num_rounds I) (num_sboxes (i_aes I)) tds -> table (num_rounds I) (num_parties I) (pt_size I) bcasts ->
  length ds = num_rounds I -> Forall (fun row => m2 I <= length row) ds ->
  length o = num_rounds I -> Forall (fun v => length (v_a v) = m1 I /\ length (v_b v) = m1 I) o ->
  length vs = num_rounds I -> Forall (fun row => length row = num_parties I /\ Forall (fun v => length (v_a v) = m1 I /\ length (v_b v) = m1 I) row) vs ->
  let digest u := stream H (digest_size I =? 32) (hashed u) 0 (digest_size I) in
  (exists body, sized I (Phase1 salt pk msg body) /\ phase_1_commitment H I salt pk msg coms kds tds bcasts = Ok (digest (Phase1 salt pk msg body))) /\
  (exists body, sized I (Phase2 salt h1 body) /\ phase_2_commitment H I c salt h1 ds = Ok (digest (Phase2 salt h1 body))) /\
  (exists body, sized I (Phase3 salt h2 body) /\ phase_3_commitment H I c salt h2 o vs = Ok (digest (Phase3 salt h2 body))).
Proof. exact phase_inputs. Qed.
Print Assumptions C47_phase_inputs.
(** the challenges depend on the hash function only at [Challenge], *)
Theorem C47_challenge_inputs : forall H H' I c fuel garb h xs,
  (forall i, H (digest_size I =? 32) (hashed (Challenge h)) i = H' (digest_size I =? 32) (hashed (Challenge h)) i) ->
  phase_1_expand H' I c h = phase_1_expand H I c h /\ phase_2_expand H' I c fuel h xs = phase_2_expand H I c fuel h xs /\
  phase_3_expand H' I fuel garb h = phase_3_expand H I fuel garb h.
Proof. exact challenges_input. Qed.
Print Assumptions C47_challenge_inputs.
(** and the salt and the root seeds are consecutive parts of the hash of [Start]. *)
Theorem C47_start_input : forall H I key pk msg, let s := stream H (digest_size I =? 32) (hashed (Start (i_params I) key pk msg)) in
  generate_salt_and_seeds H I (key, pk) msg = (s 0 32, map (fun r => s (32 + r * seed_size I) (seed_size I)) (seq 0 (num_rounds I))).
Proof. exact start_input. Qed.
Print Assumptions C47_start_input.

(** C47: two hashes of the same kind with the same input are the same use: same salt, same indices, same seed, same
    message, ... In particular the inputs for different repetitions, parties and nodes differ. *)
Theorem C47_same_kind : forall I u u', sized I u -> sized I u' -> kind u = kind u' -> hashed u = hashed u' -> u = u'.
Proof. exact same_use. Qed.
Print Assumptions C47_same_kind.
Theorem C47_indices : forall I salt salt' a b a' b' seed seed', (a, b) <> (a', b') ->
  (sized I (Commit salt a b seed) -> sized I (Commit salt' a' b' seed') -> hashed (Commit salt a b seed) <> hashed (Commit salt' a' b' seed')) /\
  (sized I (Tape salt a b seed) -> sized I (Tape salt' a' b' seed') -> hashed (Tape salt a b seed) <> hashed (Tape salt' a' b' seed')) /\
  (sized I (Node salt a b seed) -> sized I (Node salt' a' b' seed') -> hashed (Node salt a b seed) <> hashed (Node salt' a' b' seed')).
Proof. exact different_indices. Qed.
Print Assumptions C47_indices.

(** C47, partial: hashes of different kinds have different inputs, unless one is a seed commitment and the other a
    tape, or one is the first hash of signing.  (Missing for the full claim: those pairs, for which it is false.) *)
Theorem C47_different_kinds_partial : forall I u u', builtin I -> sized I u -> sized I u' -> kind u <> kind u' ->
  2 <= kind u \/ 2 <= kind u' -> kind u <> 7 -> kind u' <> 7 -> hashed u <> hashed u'.
Proof. exact different_use. Qed.
Print Assumptions C47_different_kinds_partial.
(** C47: exactly which kinds can coincide, for each parameter set. *)
Theorem C47_collisions : forall I k k', builtin I -> k < k' ->
  ((exists u u', sized I u /\ sized I u' /\ kind u = k /\ kind u' = k' /\ hashed u = hashed u') <-> overlap I k k').
Proof. exact collisions. Qed.
Print Assumptions C47_collisions.
(** C47 is false as stated: for every parameter set there are a salt and a seed for which the commitment to the seed,
    which is published, is the beginning of the tape derived from the seed, which is secret -- whatever the hash
    function is. *)
Theorem C47_refuted : forall I, builtin I -> exists salt seed rep party, length salt = 32 /\ length seed = seed_size I /\
  forall H, commit_to_party_seed H I seed salt rep party = firstn (digest_size I) (generate_tape H I salt rep party seed).
Proof. exact refuted. Qed.
Print Assumptions C47_refuted.

Example C47_case : exists I, builtin I /\ sized I (Commit (zeros 32) 3 5 (zeros (seed_size I))) /\ sized I (Node (zeros 32) 3 5 (zeros (seed_size I))) /\
  sized I (Challenge (zeros (digest_size I))) /\ overlap I 0 7 /\ ~ overlap I 2 6.
Proof. exact domain_case. Qed.
Example C47_case_phases : exists I c, builtin I /\ init_extension_field (lambda I) = Ok c /\
  table (num_rounds I) (num_parties I) (digest_size I) (repeat (repeat (zeros (digest_size I)) (num_parties I)) (num_rounds I)) /\
  column (num_rounds I) (key_size (i_aes I)) (repeat (zeros (key_size (i_aes I))) (num_rounds I)).
Proof. exact phases_case. Qed.
