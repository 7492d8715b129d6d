(** Property theorems about two signatures that answer the last challenge differently (C55) *)
From Coq Require Import Arith NArith ZArith List Bool Lia.
From Verif Require Import Prelude FieldModel FieldSpec Instances HashModel TreeSpec AesSpec AesShares BanquetModel Serialize Forge SigSpec KeygenBad VerifyCases ExtractSpec ExtractApi PropSign FreeSpec BanquetApi.
Import ListNotations.

(** C55: H' differs from H only in what it answers for h_3, so that the same commitments and the same opened values are
    challenged to open other parties.  If both answers are accepted, then for every repetition e where the closed parties
    differ the two signatures show a collision of H, or a secret key for pk, or bad coefficients or a bad evaluation point
    were drawn; and all seeds committed to in h_1 are those that the transcripts contain.
    C55_few_coefficients and C55_few_points say how few coefficients and points are bad once the pairs, the tapes and the
    corrections are fixed.  The code does not fix all corrections of P before it draws the point (see C54), so a forger can
    make the point bad afterwards. *)
Theorem C55_extraction : forall H H' I c, regular I -> init_extension_field (lambda I) = Ok c -> seed_size I + 36 <> digest_size I ->
  forall fuel fuel' garb garb' st st' pk msg sig sig',
  sig_shape I sig -> sig_shape I sig' -> str (2 * pt_size I) pk -> 1 <= fuel -> 1 <= fuel' ->
  snd (verify H fuel garb st I pk sig msg) = Ok true -> snd (verify H' fuel' garb' st' I pk sig' msg) = Ok true ->
  s_h1 sig = s_h1 sig' -> s_h3 sig = s_h3 sig' -> (forall v m i, m <> s_h3 sig -> H' v m i = H v m i) ->
  (exists X, is_transcript H I c pk sig X) /\ (exists X', is_transcript H' I c pk sig' X') /\
  forall X X' e, is_transcript H I c pk sig X -> is_transcript H' I c pk sig' X' -> e < num_rounds I -> hidden_of H I sig e <> hidden_of H' I sig' e ->
    fork_collision H H' I pk msg sig sig' X X' \/
    ((secret_key_for I pk (joint_key I (X e) (X' e)) \/
      bad_coefs I c (x_coef (X e)) (joint_in I (X e) (X' e)) (joint_inv I (X e) (X' e)) \/
      bad_point I c (x_coef (X e)) (joint_in I (X e) (X' e)) (joint_inv I (X e) (X' e)) (joint_tape I (X e) (X' e)) (joint_delta (X e) (pf_of sig e) (pf_of sig' e)) (x_point (X e))) /\
     s_salt sig = s_salt sig' /\
     forall p, p < num_parties I ->
       x_com (X e) p = digest H I (com_input (s_salt sig) e p (joint_seed I (X e) (X' e) p)) /\
       joint (X e) (X' e) x_tape p = stream H (2 * seed_size I =? 32) (joint_seed I (X e) (X' e) p ++ s_salt sig ++ le16 e ++ le16 p) 0 (tape_size I)).
Proof. exact extraction. Qed.
Print Assumptions C55_extraction.

(** If pair i is wrong, then whatever the other coefficients are, at most one value of coefficient i mod m1 is bad. *)
Theorem C55_few_coefficients : forall I c, regular I -> init_extension_field (lambda I) = Ok c ->
  forall s t i rs rs', is_bytes s -> is_bytes t -> i < num_sboxes (i_aes I) -> ~ right_pair s t i ->
  length rs = m1 I -> length rs' = m1 I -> Forall (elt (lambda I)) rs -> Forall (elt (lambda I)) rs' ->
  (forall j, j <> i mod m1 I -> nth j rs 0%N = nth j rs' 0%N) ->
  bad_coefs I c rs s t -> bad_coefs I c rs' s t -> rs = rs'.
Proof. exact few_coefs. Qed.
Print Assumptions C55_few_coefficients.

(** For fixed coefficients, pairs, tapes and corrections of P, at most 2*m2 points are bad. *)
Theorem C55_few_points : forall I c, regular I -> init_extension_field (lambda I) = Ok c ->
  forall rs s t tp ds zs, NoDup zs -> Forall (elt (lambda I)) zs -> (forall R, In R zs -> bad_point I c rs s t tp ds R) -> length zs <= 2 * m2 I.
Proof. exact few_points. Qed.
Print Assumptions C55_few_points.

(** Two signatures as in C55_extraction: the last party stays closed in the first one, the first party in the other. *)
Example C55_case : exists key pk sig sig', keygen 1 I1 ex_rng = Ok (key, pk) /\ str (2 * pt_size I1) pk /\ sig_shape I1 sig /\ sig_shape I1 sig' /\
  (forall fuel garb st, 1 <= fuel -> snd (verify two fuel garb st I1 pk sig []) = Ok true) /\
  (forall fuel garb st, 1 <= fuel -> snd (verify two' fuel garb st I1 pk sig' []) = Ok true) /\
  s_h1 sig = s_h1 sig' /\ s_h3 sig = s_h3 sig' /\ s_h1 sig <> s_h3 sig /\ (forall v m i, m <> s_h3 sig -> two' v m i = two v m i) /\
  forall e, hidden_of two I1 sig e = 63 /\ hidden_of two' I1 sig' e = 0.
Proof. exact (fork_run []). Qed.
