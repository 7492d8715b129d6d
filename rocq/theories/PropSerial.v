(** Property theorems about banquet_serialize_signature and banquet_deserialize_signature (C04, C06, C07, C08, C09).
    [sig_shape I sig]: every member of the structure has the size the parameter set prescribes.  [sig_size I] is the
    formula 32 + 2*digest + T*(ceil_log2(N)*seed + digest + key + sboxes + (m2+1+1+2*m1)*lambda).
    [st_init None (lambda I) = (st, Ok tt)]: st is the state a process is in once it has signed or verified with a
    parameter set of that lambda. *)
From Coq Require Import Arith NArith ZArith List Bool Lia.
From Verif Require Import Prelude FieldModel Instances HashModel TreeModel AesApi BanquetModel BanquetPure BanquetVerify Serialize BanquetApi History SignFacts SerialFacts PropSign FreeSpec.
Import ListNotations.

(** C04: a well-shaped signature whose opened parties are those its third digest determines survives the round trip. *)
Theorem C04_roundtrip : forall H fuel garb I st sig, regular I -> st_init None (lambda I) = (st, Ok tt) -> sig_shape I sig ->
  phase_3_expand H I fuel garb (s_h3 sig) = Ok (map (fun p => snd (p_reveal p)) (s_proofs sig)) ->
  exists ser, serialize st I sig = Ok ser /\ deserialize H fuel garb st I ser = Ok sig.
Proof. exact api_roundtrip. Qed.
Print Assumptions C04_roundtrip.

(** C06: the length of a serialized signature. *)
Theorem C06_length : forall I st sig, regular I -> st_init None (lambda I) = (st, Ok tt) -> sig_shape I sig ->
  exists ser, serialize st I sig = Ok ser /\ length ser =
    32 + 2 * digest_size I + num_rounds I * (Nat.log2_up (num_parties I) * seed_size I + digest_size I + key_size (i_aes I) + num_sboxes (i_aes I) + (m2 I + 1 + 1 + 2 * m1 I) * lambda I).
Proof. exact api_length_formula. Qed.
Print Assumptions C06_length.
Theorem C06_length_of_signatures : forall H I kf r kp msg fuel garb st st' sig,
  regular I -> rng_bytes r -> keygen kf I r = Ok kp -> sign H fuel garb st I kp msg = (st', Ok sig) ->
  exists ser, serialize st' I sig = Ok ser /\ length ser =
    32 + 2 * digest_size I + num_rounds I * (Nat.log2_up (num_parties I) * seed_size I + digest_size I + key_size (i_aes I) + num_sboxes (i_aes I) + (m2 I + 1 + 1 + 2 * m1 I) * lambda I).
Proof. exact api_sign_length_formula. Qed.
Print Assumptions C06_length_of_signatures.

(** C07: a byte string of that length deserializes, and serializing gives it back; so different strings, different signatures. *)
Theorem C07_canonical : forall H fuel garb I st ser, regular I -> st_init None (lambda I) = (st, Ok tt) -> 1 <= fuel -> is_bytes ser -> length ser = sig_size I ->
  exists sig, deserialize H fuel garb st I ser = Ok sig /\ serialize st I sig = Ok ser.
Proof. exact api_canonical. Qed.
Print Assumptions C07_canonical.
Theorem C07_injective : forall H fuel garb I st ser1 ser2 sig, regular I -> st_init None (lambda I) = (st, Ok tt) -> is_bytes ser1 -> is_bytes ser2 ->
  length ser1 = sig_size I -> length ser2 = sig_size I ->
  deserialize H fuel garb st I ser1 = Ok sig -> deserialize H fuel garb st I ser2 = Ok sig -> ser1 = ser2.
Proof. exact api_injective. Qed.
Print Assumptions C07_injective.

(** C08 is false of the code.  Every proper prefix of a serialized signature makes it read out of bounds, and every
    extension is accepted as the original. *)
Theorem C08_truncated_refuted : forall H fuel garb I st ser, regular I -> st_init None (lambda I) = (st, Ok tt) -> 1 <= fuel -> is_bytes ser -> length ser < sig_size I ->
  deserialize H fuel garb st I ser = UB OutOfBounds.
Proof. exact api_short. Qed.
Print Assumptions C08_truncated_refuted.
Theorem C08_trailing_refuted : forall H fuel garb I st ser extra, regular I -> st_init None (lambda I) = (st, Ok tt) -> is_bytes ser -> is_bytes extra -> length ser = sig_size I ->
  deserialize H fuel garb st I (ser ++ extra) = deserialize H fuel garb st I ser.
Proof. exact api_long. Qed.
Print Assumptions C08_trailing_refuted.
(** What is left of it: the input is never read beyond its end exactly if it has at least the prescribed length, and
    the result depends on, and determines, its first [sig_size I] bytes. *)
Theorem C08_deserialize_partial : forall H fuel garb I st ser, regular I -> st_init None (lambda I) = (st, Ok tt) -> 1 <= fuel -> is_bytes ser ->
  (sig_size I <= length ser <-> exists sig, deserialize H fuel garb st I ser = Ok sig) /\
  (forall sig, deserialize H fuel garb st I ser = Ok sig -> serialize st I sig = Ok (firstn (sig_size I) ser)).
Proof. exact api_any. Qed.
Print Assumptions C08_deserialize_partial.

(** C09 is false of the code: in a fresh process every field element of the result is zero, ... *)
Theorem C09_fresh_process_refuted : forall H fuel garb I ser, regular I -> 1 <= fuel -> is_bytes ser -> length ser = sig_size I ->
  exists sig, deserialize H fuel garb (after H []) I ser = Ok sig /\ length (s_proofs sig) = num_rounds I /\
    Forall (fun p => Forall (fun x => x = 0%N) (p_P_delta p) /\ p_P_at_R p = 0%N /\ Forall (fun x => x = 0%N) (p_S_at_R p) /\ Forall (fun x => x = 0%N) (p_T_at_R p)) (s_proofs sig).
Proof. exact deserialize_fresh. Qed.
Print Assumptions C09_fresh_process_refuted.
(** ... which differs from the result after a signing or verification call whenever the string has no zero byte, ... *)
Theorem C09_history_refuted : forall H fuel garb I ser h f g pk sig msg, regular I -> 1 <= fuel -> is_bytes ser -> length ser = sig_size I -> ~ In 0%N ser ->
  deserialize H fuel garb (after H []) I ser <> deserialize H fuel garb (after H (h ++ [CVerify f g I pk sig msg])) I ser.
Proof. exact api_history_differs. Qed.
Print Assumptions C09_history_refuted.
(** ... after a call with a parameter set of a larger field the code reads beyond the end of a buffer, ... *)
Theorem C09_larger_field_refuted : forall H fuel garb I J ser h f g pk sig msg, regular I -> regular J -> lambda I < lambda J -> 1 <= fuel -> is_bytes ser -> length ser = sig_size I ->
  deserialize H fuel garb (after H (h ++ [CVerify f g J pk sig msg])) I ser = UB OutOfBounds.
Proof. exact api_larger. Qed.
Print Assumptions C09_larger_field_refuted.
(** ... and serializing in a fresh process drops all field elements. *)
Theorem C09_serialize_fresh_refuted : forall I sig H, sig_shape I sig -> exists ser, serialize (after H []) I sig = Ok ser /\
  length ser + num_rounds I * ((m2 I + 1 + 1 + 2 * m1 I) * lambda I) = sig_size I.
Proof. exact (fun I sig _ => serialize_fresh I sig). Qed.
Print Assumptions C09_serialize_fresh_refuted.
(** What is left of it: once the last signing or verification call was on a parameter set of the same field, nothing
    before it matters; calls other than signing and verifying never matter. *)
Theorem C09_same_field_partial : forall H h1 h2 last1 last2 more1 more2 I fuel garb ser sig, regular I ->
  (forall x, In x [last1; last2] -> exists J, lambda J = lambda I /\
     ((exists f g kp msg, x = CSign f g J kp msg) \/ (exists f g pk s msg, x = CVerify f g J pk s msg))) ->
  (forall x, In x (more1 ++ more2) -> match x with CSign _ _ _ _ _ | CVerify _ _ _ _ _ _ => False | _ => True end) ->
  let a := after H (h1 ++ last1 :: more1) in let b := after H (h2 ++ last2 :: more2) in
  deserialize H fuel garb a I ser = deserialize H fuel garb b I ser /\ serialize a I sig = serialize b I sig.
Proof. exact api_same_field. Qed.
Print Assumptions C09_same_field_partial.

(** Concrete cases: parameter set 1; a string of 255s of the prescribed length; parameter set 3 has a larger field. *)
Definition s255 : bytes := repeat 255%N (sig_size I1).
Example C04_case : regular I1 /\ (exists st, st_init None (lambda I1) = (st, Ok tt)) /\ is_bytes s255 /\ length s255 = sig_size I1 /\ ~ In 0%N s255 /\
  (exists st sig, st_init None (lambda I1) = (st, Ok tt) /\ sig_shape I1 sig /\ phase_3_expand ones I1 1 (fun _ => 0%N) (s_h3 sig) = Ok (map (fun p => snd (p_reveal p)) (s_proofs sig))).
Proof.
  assert (B : regular I1) by (apply builtin_regular; exists 1%Z; reflexivity).
  assert (Y : is_bytes s255) by (apply Forall_forall; intros x Hx; apply repeat_spec in Hx; subst x; reflexivity).
  split; [exact B|]. split; [eexists; reflexivity|]. split; [exact Y|]. split; [apply repeat_length|].
  split; [intros X; apply repeat_spec in X; discriminate X|].
  eexists. destruct (api_exists ones 1 (fun _ => 0%N) I1 _ s255 B eq_refl (le_n 1) Y (repeat_length _ _)) as (sig & S1 & S2). exists sig. repeat split; try assumption; reflexivity || apply S1.
Qed.
Example C09_case : exists J, regular J /\ lambda I1 < lambda J.
Proof. exists (nth 4 instances I1). split; [apply builtin_regular; exists 4%Z; reflexivity|]. cbn. lia. Qed.
