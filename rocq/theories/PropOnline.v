(** Property theorems about a signature accepted by verify and the seeds committed to in it (C79): straight-line extraction of the
    key.  [is_transcript] and [accepts] are those of SigSpec, [bad_coefs] and [bad_point] those of C55 (ExtractSpec), [prescribed]
    that of C71 (HonestSpec).  [evaluation ... seed y] (OnlineSpec) says that y has the values of all parties when party p starts
    from seed p; [deviates I x y p] that what party p has broadcast in x is not what it has in y. *)
From Coq Require Import Arith NArith ZArith List Bool Lia.
From Verif Require Import Prelude FieldModel FieldSpec Instances HashModel TreeSpec AesSpec AesModel AesShares BanquetModel Serialize Forge SigSpec ExtractSpec FreeSpec BanquetApi SoundSpec HonestSpec OnlineSpec OnlineApi PropSign PropHonest OnlineCases.
Import ListNotations.

(** Whatever the seeds are, the parties' values exist. *)
Theorem C79_evaluation : forall H I c, regular I -> init_extension_field (lambda I) = Ok c ->
  forall fuel garb st pk msg sig X (seed : nat -> nat -> bytes) e, sig_shape I sig -> str (2 * pt_size I) pk -> 1 <= fuel ->
  snd (verify H fuel garb st I pk sig msg) = Ok true -> is_transcript H I c pk sig X -> e < num_rounds I ->
  exists y, evaluation H I c (s_salt sig) (slice pk 0 (pt_size I)) e (pf_of sig e) (x_coef (X e)) (x_point (X e)) (seed e) y.
Proof. exact online_exists. Qed.
Print Assumptions C79_evaluation.

(** C79: seed e p is a seed of party p in repetition e with the commitment that is in the transcript (also for the closed party: the
    one that the signer hashed, if it hashed one).  Then there is a collision of commitments, or in every repetition no party but
    the closed one deviates from what it should do with its seed, and: the closed one deviates, or the shares of the key that
    follow from the seeds add up to a secret key for pk, or the coefficients or the point were bad for the S-box values that
    follow from the seeds.  No second signature is needed, unlike in C55. *)
Theorem C79_extraction : forall H I c, regular I -> init_extension_field (lambda I) = Ok c ->
  forall fuel garb st pk msg sig, sig_shape I sig -> str (2 * pt_size I) pk -> 1 <= fuel ->
  snd (verify H fuel garb st I pk sig msg) = Ok true ->
  (exists X, is_transcript H I c pk sig X) /\ forall X (seed : nat -> nat -> bytes) Y, is_transcript H I c pk sig X ->
  (forall e p, e < num_rounds I -> p < num_parties I -> digest H I (com_input (s_salt sig) e p (seed e p)) = x_com (X e) p) ->
  (forall e, e < num_rounds I ->
     evaluation H I c (s_salt sig) (slice pk 0 (pt_size I)) e (pf_of sig e) (x_coef (X e)) (x_point (X e)) (seed e) (Y e)) ->
  (exists e p, e < num_rounds I /\ p < num_parties I /\ p <> hidden_of H I sig e /\
     collides (digest H I) (com_input (s_salt sig) e p (seed e p)) (com_input (s_salt sig) e p (x_node (X e) (first_leaf (num_parties I) + p)))) \/
  forall e, e < num_rounds I ->
    (forall p, p < num_parties I -> deviates I (X e) (Y e) p -> p = hidden_of H I sig e) /\
    (deviates I (X e) (Y e) (hidden_of H I sig e) \/
     secret_key_for I pk (all_key I (Y e)) \/
     bad_coefs I c (x_coef (X e)) (all_in I (Y e)) (all_inv I (Y e)) \/
     bad_point I c (x_coef (X e)) (all_in I (Y e)) (all_inv I (Y e)) (all_tape I (Y e)) (fun k => nth k (p_P_delta (pf_of sig e)) 0%N) (x_point (X e))).
Proof. exact online. Qed.
Print Assumptions C79_extraction.

(** C79, with C78: if there is no collision and no repetition gives a key, the challenges of the signature are among those that let
    through the prover W whose S-box values and tapes follow from the seeds and the corrections of S-box outputs, whose
    corrections of P are those of the signature and who guesses g, the party that deviates (if one does).  C78_together counts
    them for corrections of P that depend on the coefficients only; C54 is about the last of them, which may depend on the point. *)
Theorem C79_passes : forall H I c, regular I -> init_extension_field (lambda I) = Ok c ->
  forall fuel garb st pk msg sig X (seed : nat -> nat -> bytes) Y g, sig_shape I sig -> str (2 * pt_size I) pk -> 1 <= fuel ->
  snd (verify H fuel garb st I pk sig msg) = Ok true -> is_transcript H I c pk sig X ->
  (forall e p, e < num_rounds I -> p < num_parties I -> digest H I (com_input (s_salt sig) e p (seed e p)) = x_com (X e) p) ->
  (forall e, e < num_rounds I ->
     evaluation H I c (s_salt sig) (slice pk 0 (pt_size I)) e (pf_of sig e) (x_coef (X e)) (x_point (X e)) (seed e) (Y e)) ->
  let rss := map (fun e => x_coef (X e)) (seq 0 (num_rounds I)) in
  let Rs := map (fun e => x_point (X e)) (seq 0 (num_rounds I)) in
  let ps := map (hidden_of H I sig) (seq 0 (num_rounds I)) in
  let W := mkProver (fun e => all_in I (Y e)) (fun e => all_inv I (Y e)) (fun e => all_tape I (Y e)) (fun _ e k => nth k (p_P_delta (pf_of sig e)) 0%N) g in
  (forall e p, e < num_rounds I -> p < num_parties I -> deviates I (X e) (Y e) p -> g rss Rs e = p) ->
  ~ (exists e p, e < num_rounds I /\ p < num_parties I /\ p <> hidden_of H I sig e /\
     collides (digest H I) (com_input (s_salt sig) e p (seed e p)) (com_input (s_salt sig) e p (x_node (X e) (first_leaf (num_parties I) + p)))) ->
  (forall e, e < num_rounds I -> ~ secret_key_for I pk (all_key I (Y e))) ->
  coef_challenge I rss /\ point_challenge I c Rs /\ party_challenge I ps /\ forall e, e < num_rounds I -> passes I c W rss Rs ps e.
Proof. exact online_passes. Qed.
Print Assumptions C79_passes.

(** C79, honest signatures: the values that C71 prescribes, the closed party's among them, are the transcript and satisfy the checks
    of verification; the seeds are committed to, nobody deviates and the key that they give is the signer's. *)
Theorem C79_honest : forall H I c, regular I -> init_extension_field (lambda I) = Ok c ->
  forall key pt ct s t msg sig X, str (key_size (i_aes I)) key -> str (pt_size I) pt ->
  aes_with_sbox_output (key_size (i_aes I)) key pt = Ok ((s, t), Some ct) -> prescribed H I c key pt ct s t msg sig X ->
  sig_shape I sig /\ is_transcript H I c (pt ++ ct) sig X /\ accepts H I c (pt ++ ct) msg sig X /\
  forall e, e < num_rounds I -> let seed p := x_node (X e) (first_leaf (num_parties I) + p) in
    (forall p, p < num_parties I -> digest H I (com_input (s_salt sig) e p (seed p)) = x_com (X e) p) /\
    evaluation H I c (s_salt sig) pt e (pf_of sig e) (x_coef (X e)) (x_point (X e)) seed (X e) /\
    (forall p, ~ deviates I (X e) (X e) p) /\ all_key I (X e) = key /\ all_in I (X e) = s /\ all_inv I (X e) = t.
Proof. exact honest_sig. Qed.
Print Assumptions C79_honest.

(** The hypotheses are met: by an honest signature, with the signer's key as the outcome *)
Example C79_case : regular I1 /\ exists c pt ct sig X fuel, init_extension_field (lambda I1) = Ok c /\ str (2 * pt_size I1) (pt ++ ct) /\ 1 <= fuel /\
  (forall garb st, snd (verify ones fuel garb st I1 (pt ++ ct) sig []) = Ok true) /\ sig_shape I1 sig /\ is_transcript ones I1 c (pt ++ ct) sig X /\
  forall e, e < num_rounds I1 ->
    (forall p, p < num_parties I1 -> digest ones I1 (com_input (s_salt sig) e p (x_node (X e) (first_leaf (num_parties I1) + p))) = x_com (X e) p) /\
    evaluation ones I1 c (s_salt sig) (slice (pt ++ ct) 0 (pt_size I1)) e (pf_of sig e) (x_coef (X e)) (x_point (X e)) (fun p => x_node (X e) (first_leaf (num_parties I1) + p)) (X e) /\
    secret_key_for I1 (pt ++ ct) (all_key I1 (X e)).
Proof. exact honest_run. Qed.
(** and by a signature made for a public key that is not the signer's: with a hash function under which everything collides it is
    accepted, and in every repetition a party deviates. *)
Example C79_case_deviates : exists c pk sig X Y fuel, init_extension_field (lambda I1) = Ok c /\ str (2 * pt_size I1) pk /\ 1 <= fuel /\
  (forall garb st, snd (verify ones fuel garb st I1 pk sig []) = Ok true) /\ sig_shape I1 sig /\ is_transcript ones I1 c pk sig X /\
  forall e, e < num_rounds I1 ->
    (forall p, p < num_parties I1 -> digest ones I1 (com_input (s_salt sig) e p (x_node (Y e) (first_leaf (num_parties I1) + p))) = x_com (X e) p) /\
    evaluation ones I1 c (s_salt sig) (slice pk 0 (pt_size I1)) e (pf_of sig e) (x_coef (X e)) (x_point (X e)) (fun p => x_node (Y e) (first_leaf (num_parties I1) + p)) (Y e) /\
    exists p, p < num_parties I1 /\ deviates I1 (X e) (Y e) p.
Proof. exact deviate_run. Qed.
