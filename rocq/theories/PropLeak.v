(** Property theorems about what the table lookups of signing reveal (C60).  [log_sign] is banquet_sign, returning also the list
    of the entries of the lifting table it reads, in order (LeakModel).  [key_of_trace], [trace_of_lookups], [trace_of_shares]
    and [candidates] (LeakSpec) are computed by the observer: they get the public key and (some of) these entries, no secrets. *)
From Coq Require Import Arith NArith ZArith List Bool Lia.
From Verif Require Import Prelude Instances HashModel AesShares BanquetModel BanquetApi AesSpec LeakModel LeakSpec LeakFacts LeakAes LeakApi PropSign FreeSpec.
Import ListNotations.

(** Recording the lookups changes nothing. *)
Theorem C60_same_call : forall H fuel garb st I kp msg, snd (log_sign H fuel garb st I kp msg) = snd (sign H fuel garb st I kp msg).
Proof. exact log_sign_erase. Qed.
Print Assumptions C60_same_call.
(** The number of lookups depends on the parameter set only. *)
Theorem C60_count_partial : forall H I kf r key pk fuel garb st msg l sig, regular I -> rng_bytes r -> keygen kf I r = Ok (key, pk) ->
  log_sign H fuel garb st I (key, pk) msg = (l, Ok sig) -> length l = 2 * num_sboxes (i_aes I) * (1 + num_rounds I * num_parties I).
Proof. exact (fun H I kf r key pk fuel garb st msg l sig B R K E => proj1 (api_leak H I kf r key pk fuel garb st msg l sig B R K E)). Qed.
Print Assumptions C60_count_partial.
(** Which entries are read depends on the key: the first lookups of every signing call give it away, whatever the hash function,
    the message and the key. *)
Theorem C60_refuted : forall H I kf r key pk fuel garb st msg l sig, regular I -> rng_bytes r -> keygen kf I r = Ok (key, pk) ->
  log_sign H fuel garb st I (key, pk) msg = (l, Ok sig) ->
  key_of_trace (nk_of I) pk (trace_of_lookups (m1 I) (m2 I) (firstn (2 * num_sboxes (i_aes I)) l)) = key.
Proof. exact (fun H I kf r key pk fuel garb st msg l sig B R K E => proj1 (proj2 (api_leak H I kf r key pk fuel garb st msg l sig B R K E))). Qed.
Print Assumptions C60_refuted.
(** So do, without these, the lookups of each single repetition, although they are made with shares of the secret only. *)
Theorem C60_shares_refuted : forall H I kf r key pk fuel garb st msg l sig, regular I -> rng_bytes r -> keygen kf I r = Ok (key, pk) ->
  log_sign H fuel garb st I (key, pk) msg = (l, Ok sig) -> forall e, e < num_rounds I ->
  let lookups_of_repetition := firstn (2 * num_sboxes (i_aes I) * num_parties I) (skipn (2 * num_sboxes (i_aes I) * (1 + e * num_parties I)) l) in
  key_of_trace (nk_of I) pk (trace_of_shares (num_parties I) (num_sboxes (i_aes I)) lookups_of_repetition) = key.
Proof. exact (fun H I kf r key pk fuel garb st msg l sig B R K E => proj1 (proj2 (proj2 (api_leak H I kf r key pk fuel garb st msg l sig B R K E)))). Qed.
Print Assumptions C60_shares_refuted.
(** An observer who sees only in which 64-byte cache line each of the first lookups falls can list at most 6^16 candidates, or 2^16 if
    the table starts at a cache line, one of which is the first 16 bytes of the key: all of it at level 1. *)
Theorem C60_lines_refuted : forall H I kf r key pk fuel garb st msg l sig, regular I -> rng_bytes r -> keygen kf I r = Ok (key, pk) ->
  log_sign H fuel garb st I (key, pk) msg = (l, Ok sig) -> forall a, (a < 8)%N ->
  let guesses := candidates (nk_of I) (m1 I) (m2 I) a pk (map (line a) (firstn (2 * num_sboxes (i_aes I)) l)) in
  In (firstn 16 key) guesses /\ length guesses <= 6 ^ 16 /\ (a = 0%N -> length guesses <= 2 ^ 16).
Proof.
  exact (fun H I kf r key pk fuel garb st msg l sig B R K E a Ha => conj (proj2 (proj2 (proj2 (api_leak H I kf r key pk fuel garb st msg l sig B R K E))) a)
    (conj (candidates_few 6 _ _ _ a pk _ (few_any a Ha)) (fun Z => candidates_few 2 _ _ _ a pk _ (eq_ind_r (fun x => few_of pairs 2 x = true) few_aligned Z)))).
Qed.
Print Assumptions C60_lines_refuted.

(** The hypotheses are met. *)
Example C60_case : regular I1 /\ rng_bytes ex_rng /\ exists key pk, keygen 1 I1 ex_rng = Ok (key, pk) /\
  forall garb st msg, exists l sig, log_sign ones 1 garb st I1 (key, pk) msg = (l, Ok sig).
Proof.
  destruct C01_case as (B & R & [key pk] & K & S). split; [exact B|]. split; [exact R|]. exists key, pk. split; [exact K|]. intros garb st msg. destruct (S garb st msg) as [sig E].
  rewrite <- (C60_same_call ones 1 garb st I1 (key, pk) msg) in E. destruct (log_sign ones 1 garb st I1 (key, pk) msg) as [l o]. cbn [snd] in E. subst o. exists l, sig. reflexivity.
Qed.
(** The observer's computation on a concrete key and plaintext. *)
Example C60_aes : let key := map N.of_nat (seq 3 16) in let pt := map N.of_nat (seq 50 16) in key_of_trace 4 pt (sbox_trace 4 key [pt]) = key.
Proof. cbv zeta. vm_cast_no_check (eq_refl (map N.of_nat (seq 3 16))). Qed.
