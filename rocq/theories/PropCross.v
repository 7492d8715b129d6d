(** Property theorems about signatures and parameter sets (C74).  [h3_input], [is_transcript], [collides], [digest] are in
    SigSpec: what verification hashes for h_3, the values it computes from a signature, and two inputs with the same digest. *)
From Coq Require Import Arith NArith ZArith List Bool Lia.
From Verif Require Import Prelude FieldModel Instances HashModel AesShares BanquetModel Serialize SigSpec FreeSpec BanquetApi VerifyCases PropSign CrossFacts CrossCases.
Import ListNotations.

(** Two signatures with the same h_3 are accepted, each under its own parameter set of the table, for any public keys and messages:
    then what was hashed for h_3 in the two verifications are different strings with the same digest. *)
Theorem C74_parameter_set : forall H I I' c c', builtin I -> builtin I' -> I <> I' ->
  init_extension_field (lambda I) = Ok c -> init_extension_field (lambda I') = Ok c' ->
  forall fuel fuel' garb garb' st st' pk pk' msg msg' sig sig',
  sig_shape I sig -> sig_shape I' sig' -> str (2 * pt_size I) pk -> str (2 * pt_size I') pk' -> 1 <= fuel -> 1 <= fuel' -> s_h3 sig = s_h3 sig' ->
  snd (verify H fuel garb st I pk sig msg) = Ok true -> snd (verify H fuel' garb' st' I' pk' sig' msg') = Ok true ->
  (exists X, is_transcript H I c pk sig X) /\ (exists X, is_transcript H I' c' pk' sig' X) /\
  forall X X', is_transcript H I c pk sig X -> is_transcript H I' c' pk' sig' X' ->
  collides (digest H I) (h3_input I (s_salt sig) (h2_of H I sig) (pf_of sig) X) (h3_input I' (s_salt sig') (h2_of H I' sig') (pf_of sig') X').
Proof.
  exact (fun H I I' c c' HB HB' Ne Hc Hc' fuel fuel' garb garb' st st' pk pk' msg msg' sig sig' SS SS' Hp Hp' Hf Hf' E3 =>
    cross H I I' c c' (builtin_regular I HB) (builtin_regular I' HB') Hc Hc' (sizes_differ I I' HB HB' Ne (shared_digest I I' sig sig' SS SS' E3))
      fuel fuel' garb garb' st st' pk pk' msg msg' sig sig' SS SS' Hp Hp' Hf Hf' E3).
Qed.
Print Assumptions C74_parameter_set.

(** the same for one byte string taken as a signature under two parameter sets of the table with the same digest size (bytes
    behind the signature are ignored by deserialization, so this can be a longer string) *)
Theorem C74_bytes : forall H I I' c c', builtin I -> builtin I' -> I <> I' -> digest_size I = digest_size I' ->
  init_extension_field (lambda I) = Ok c -> init_extension_field (lambda I') = Ok c' ->
  forall fuel fuel' garb garb' st st' pk pk' msg msg' ser sig sig', is_bytes ser ->
  str (2 * pt_size I) pk -> str (2 * pt_size I') pk' -> 1 <= fuel -> 1 <= fuel' ->
  deserialize H fuel garb (Some c) I ser = Ok sig -> deserialize H fuel' garb' (Some c') I' ser = Ok sig' ->
  snd (verify H fuel garb st I pk sig msg) = Ok true -> snd (verify H fuel' garb' st' I' pk' sig' msg') = Ok true ->
  (exists X, is_transcript H I c pk sig X) /\ (exists X, is_transcript H I' c' pk' sig' X) /\
  forall X X', is_transcript H I c pk sig X -> is_transcript H I' c' pk' sig' X' ->
  collides (digest H I) (h3_input I (s_salt sig) (h2_of H I sig) (pf_of sig) X) (h3_input I' (s_salt sig') (h2_of H I' sig') (pf_of sig') X').
Proof.
  intros H I I' c c' HB HB' Ne D Hc Hc' fuel fuel' garb garb' st st' pk pk' msg msg' ser sig sig' B Hp Hp' Hf Hf' E E' V V'.
  destruct (des_h3 H fuel garb I c ser sig (builtin_regular I HB) Hc B Hf E) as [SS E3]. destruct (des_h3 H fuel' garb' I' c' ser sig' (builtin_regular I' HB') Hc' B Hf' E') as [SS' E3'].
  apply (C74_parameter_set H I I' c c' HB HB' Ne Hc Hc' fuel fuel' garb garb' st st' pk pk' msg msg' sig sig' SS SS' Hp Hp' Hf Hf'); [rewrite E3, E3', D; reflexivity|exact V|exact V'].
Qed.
Print Assumptions C74_bytes.

(** for parameters chosen freely: if the views are not of the same total size *)
Theorem C74_chosen : forall H I I' c c', regular I -> regular I' -> init_extension_field (lambda I) = Ok c -> init_extension_field (lambda I') = Ok c' ->
  num_rounds I * (lambda I * (1 + num_parties I + m1 I * (2 + 2 * num_parties I))) <>
  num_rounds I' * (lambda I' * (1 + num_parties I' + m1 I' * (2 + 2 * num_parties I'))) ->
  forall fuel fuel' garb garb' st st' pk pk' msg msg' sig sig',
  sig_shape I sig -> sig_shape I' sig' -> str (2 * pt_size I) pk -> str (2 * pt_size I') pk' -> 1 <= fuel -> 1 <= fuel' -> s_h3 sig = s_h3 sig' ->
  snd (verify H fuel garb st I pk sig msg) = Ok true -> snd (verify H fuel' garb' st' I' pk' sig' msg') = Ok true ->
  (exists X, is_transcript H I c pk sig X) /\ (exists X, is_transcript H I' c' pk' sig' X) /\
  forall X X', is_transcript H I c pk sig X -> is_transcript H I' c' pk' sig' X' ->
  collides (digest H I) (h3_input I (s_salt sig) (h2_of H I sig) (pf_of sig) X) (h3_input I' (s_salt sig') (h2_of H I' sig') (pf_of sig') X').
Proof. exact cross. Qed.
Print Assumptions C74_chosen.

(** the number of the parameter set itself is not looked at: instances that differ only there accept the same signatures *)
Theorem C74_number : forall H fuel garb st I k pk sig msg ser,
  let J := mkInst (i_aes I) (digest_size I) (seed_size I) (num_rounds I) (num_parties I) (m1 I) (m2 I) (lambda I) k in
  verify H fuel garb st J pk sig msg = verify H fuel garb st I pk sig msg /\
  deserialize H fuel garb st J ser = deserialize H fuel garb st I ser /\ serialize st J sig = serialize st I sig.
Proof. exact number_free. Qed.
Print Assumptions C74_number.

(** With a hash function whose output bytes are all 64 there is a byte string that is a signature under the first and under the
    second parameter set, for all messages and public keys. *)
Example C74_case : builtin I1 /\ builtin I2 /\ I1 <> I2 /\ digest_size I1 = digest_size I2 /\
  exists c ser sig sig', init_extension_field (lambda I1) = Ok c /\ init_extension_field (lambda I2) = Ok c /\ is_bytes ser /\
    sig_shape I1 sig /\ sig_shape I2 sig' /\ s_h3 sig = s_h3 sig' /\
    (forall fuel garb, 1 <= fuel -> deserialize (same 64) fuel garb (Some c) I1 ser = Ok sig /\ deserialize (same 64) fuel garb (Some c) I2 ser = Ok sig') /\
    forall fuel garb st pk msg, str 32 pk -> 1 <= fuel ->
      snd (verify (same 64) fuel garb st I1 pk sig msg) = Ok true /\ snd (verify (same 64) fuel garb st I2 pk sig' msg) = Ok true.
Proof.
  split; [exists 1%Z; reflexivity|]. split; [exists 2%Z; reflexivity|]. split; [discriminate|]. split; [reflexivity|].
  destruct two_sets as (c & ser & A1 & A2 & A3 & A4 & A5). exists c, ser, (zero_sig I1), (zero_sig I2). repeat (split; [first [exact A1|exact A2|exact A3|exact A4|apply zero_sig_shape|reflexivity]|]). exact A5.
Qed.
