(** Property theorems about the randomness of different signing calls (C59).  sign is deterministic: salt and seeds come from
    hashing [call_input], the two-byte parameter number, the secret key, the public key and the message. *)
From Coq Require Import Arith NArith ZArith List Bool Lia.
From Verif Require Import Prelude Instances HashModel AesShares BanquetModel BanquetApi History SignFacts SigSpec FreshFacts PropSign.
Import ListNotations.

Definition call_input (I : instance) (key pk msg : bytes) : bytes := le16 (i_params I) ++ key ++ pk ++ msg.

(** Two calls with keys of the prescribed lengths give the hash function the same input only if they are the same call. *)
Theorem C59_inputs : forall I I' key key' pk pk' msg msg', builtin I -> builtin I' ->
  length key = key_size (i_aes I) -> length pk = 2 * pt_size I -> length key' = key_size (i_aes I') -> length pk' = 2 * pt_size I' ->
  call_input I key pk msg = call_input I' key' pk' msg' -> I = I' /\ key = key' /\ pk = pk' /\ msg = msg'.
Proof.
  exact (fun I I' key key' pk pk' msg msg' B B' K1 P1 K2 P2 E => match signing_input_inj I I' (key, pk) (key', pk') msg msg' B B' K1 P1 K2 P2 E with
    | conj E1 (conj E2 E3) => conj E1 (conj (f_equal fst E2) (conj (f_equal snd E2) E3)) end).
Qed.
Print Assumptions C59_inputs.
(** If two calls, in any process states, return signatures with the same salt, then they are the same call and return the same
    signature, or two different inputs have the same 32 bytes of hash output. *)
Theorem C59_salts : forall H I I' fuel fuel' garb garb' st st' key key' pk pk' msg msg' sig sig', builtin I -> builtin I' ->
  length key = key_size (i_aes I) -> length pk = 2 * pt_size I -> length key' = key_size (i_aes I') -> length pk' = 2 * pt_size I' ->
  snd (sign H fuel garb st I (key, pk) msg) = Ok sig -> snd (sign H fuel' garb' st' I' (key', pk') msg') = Ok sig' -> s_salt sig = s_salt sig' ->
  (I = I' /\ key = key' /\ pk = pk' /\ msg = msg' /\ sig = sig') \/
  (call_input I key pk msg <> call_input I' key' pk' msg' /\
   stream H (digest_size I =? 32) (call_input I key pk msg) 0 32 = stream H (digest_size I' =? 32) (call_input I' key' pk' msg') 0 32).
Proof.
  exact (fun H I I' fuel fuel' garb garb' st st' key key' pk pk' msg msg' sig sig' B B' K1 P1 K2 P2 S S' E =>
    match salts_differ H I I' fuel fuel' garb garb' st st' (key, pk) (key', pk') msg msg' sig sig' B B' K1 P1 K2 P2 S S' E with
    | or_introl (conj E1 (conj E2 (conj E3 E4))) => or_introl (conj E1 (conj (f_equal fst E2) (conj (f_equal snd E2) (conj E3 E4))))
    | or_intror X => or_intror X end).
Qed.
Print Assumptions C59_salts.

(** Both cases occur: signing twice the same message, and signing two messages with a hash function that always returns 255. *)
Example C59_case : builtin I1 /\ exists key pk, length key = key_size (i_aes I1) /\ length pk = 2 * pt_size I1 /\
  (forall garb st msg, exists sig, snd (sign ones 1 garb st I1 (key, pk) msg) = Ok sig) /\
  forall garb st sig sig', snd (sign ones 1 garb st I1 (key, pk) [1%N]) = Ok sig -> snd (sign ones 1 garb st I1 (key, pk) [2%N]) = Ok sig' ->
    s_salt sig = s_salt sig' /\ call_input I1 key pk [1%N] <> call_input I1 key pk [2%N].
Proof.
  destruct C01_case as (_ & R & [key pk] & K & S). assert (B : builtin I1) by (exists 1%Z; reflexivity). split; [exact B|]. exists key, pk.
  assert (L : length key = 16 /\ length pk = 32).
  { revert K. let v := eval vm_compute in (keygen 1 I1 ex_rng) in assert (E : keygen 1 I1 ex_rng = v) by (vm_cast_no_check (eq_refl v)). rewrite E. intros K. injection K as <- <-. split; reflexivity. }
  split; [apply L|]. split; [apply L|]. split; [exact S|]. intros garb st sig sig' S1 S2. split.
  - rewrite (C38_salt _ _ _ _ _ _ _ _ S1), (C38_salt _ _ _ _ _ _ _ _ S2). reflexivity.
  - intros E. apply C59_inputs in E; [|exact B|exact B|apply L..]. destruct E as (_ & _ & _ & E). discriminate E.
Qed.
