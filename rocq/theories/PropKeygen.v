(** Property theorems about the origin of key material (C44).  The random source r: call number i delivers snd (r i) to the
    front of the buffer and reports success iff fst (r i).  Attempt n of keygen makes calls 2n (key) and 2n+1 (plaintext). *)
From Coq Require Import Arith NArith ZArith List Bool Lia.
From Verif Require Import Prelude Instances AesSpec AesApi AesShares BanquetModel BanquetApi KeygenFacts PropSign KeygenBad FreeSpec.
Import ListNotations.

(** Exactly what is returned: for the first attempt whose key and plaintext buffers give no zero S-box input, these two
    buffers, where a buffer holds at each position the byte delivered last ([latest]). *)
Theorem C44_keygen_exact : forall I kf r key pk, regular I -> rng_bytes r -> keygen kf I r = Ok (key, pk) ->
  exists n, n < kf /\
    let K i := buffer (fun j => snd (r (2 * j))) i (key_size (i_aes I)) in
    let P i := buffer (fun j => snd (r (2 * j + 1))) i (pt_size I) in
    key = K (S n) /\ firstn (pt_size I) pk = P (S n) /\
    (forall i, i <= n -> (In 0%N (all_sbox_inputs (nk_of I) (K (S i)) (blocks (nk_of I) (P (S i)))) <-> i < n)).
Proof. exact keygen_exact. Qed.
Print Assumptions C44_keygen_exact.

(** Whatever fails, no byte of a returned key is an undelivered one, and at least one call filled the whole buffer (the
    last key byte enters an S-box, so a buffer that was never filled is rejected).  Missing: "by a successful call". *)
Theorem C44_every_byte_delivered_partial : forall I kf r key pk, regular I -> rng_bytes r -> keygen kf I r = Ok (key, pk) ->
  exists n, (exists m, m <= n /\ length (snd (r (2 * m))) = key_size (i_aes I)) /\
    forall p, p < key_size (i_aes I) -> exists m, m <= n /\ p < length (snd (r (2 * m))) /\ nth p key 0%N = nth p (snd (r (2 * m))) 0%N.
Proof. exact keygen_all_delivered. Qed.
Print Assumptions C44_every_byte_delivered_partial.
(** When all calls succeed, key and plaintext are what two consecutive calls delivered. *)
Theorem C44_successful_calls_partial : forall I kf r key pk, regular I -> rng_bytes r ->
  (forall i, fst (r i) = true /\ length (snd (r i)) = if Nat.even i then key_size (i_aes I) else pt_size I) -> keygen kf I r = Ok (key, pk) ->
  exists n, key = snd (r (2 * n)) /\ firstn (pt_size I) pk = snd (r (2 * n + 1)).
Proof. exact keygen_successful. Qed.
Print Assumptions C44_successful_calls_partial.

(** The property is false of the code, which ignores the result of the random source.  Here the first attempt is rejected,
    the second key call fails after delivering five bytes, and these five are in the key that is returned. *)
Theorem C44_failed_call_refuted : exists key pk, rng_bytes bad_rng /\ keygen 2 I1 bad_rng = Ok (key, pk) /\
  firstn 5 key = snd (bad_rng 2) /\ fst (bad_rng 2) = false /\
  forall i p, p < 5 -> fst (bad_rng i) = true -> nth p key 0%N <> nth p (snd (bad_rng i)) 0%N.
Proof. exact bad_keygen. Qed.
Print Assumptions C44_failed_call_refuted.
(** And the plaintext half of the public key may consist of bytes that were never delivered. *)
Theorem C44_plaintext_refuted : exists r key pk, rng_bytes r /\ (forall i, Nat.even i = false -> r i = (false, [])) /\
  keygen 1 I1 r = Ok (key, pk) /\ firstn (pt_size I1) pk = zeros (pt_size I1).
Proof. exact bad_plaintext. Qed.
Print Assumptions C44_plaintext_refuted.

(** A case for the partial theorems. *)
Example C44_case : regular I1 /\ rng_bytes ex_rng /\ (exists key pk, keygen 1 I1 ex_rng = Ok (key, pk)) /\
  forall i, fst (ex_rng i) = true /\ length (snd (ex_rng i)) = if Nat.even i then key_size (i_aes I1) else pt_size I1.
Proof.
  split; [apply builtin_regular; exists 1%Z; reflexivity|]. split; [|split].
  - intros i. unfold ex_rng. cbn [snd]. apply Forall_map, Forall_forall. intros j _. destruct (Nat.even i); apply N.mod_lt; discriminate.
  - destruct (keygen 1 I1 ex_rng) as [[key pk]| | |] eqn:E; [eauto|exfalso; revert E; vm_compute; discriminate..].
  - intros i. unfold ex_rng. cbn [fst snd]. rewrite map_length, seq_length. destruct (Nat.even i); auto.
Qed.
