(** Property theorems about signatures made without a secret key (C54).
    [forge H fuel garb I pk msg salt seeds] (in Forge) is a procedure built from the code's own functions that is given the
    hash function, the public key, the message, a salt and one seed per repetition, and no secret key;
    [forge_points_drawn] are the evaluation points it draws on the way, one per repetition, from the output of the hash
    function (as banquet_verify does, [R_candidate H I h2 k] is the k-th block of lambda bytes);
    [secret_key_for I pk key] (in Forge): pk is a plaintext and its AES encryption under key;
    [verify H fuel garb st I pk sig msg]: banquet_verify; [sig_shape], [str]: sizes. *)
From Coq Require Import Arith NArith List Bool.
From Verif Require Import Prelude FieldModel Instances HashModel AesShares BanquetModel Serialize BanquetApi Forge ForgeApi FreeSpec.
Import ListNotations.

(** C54 as stated is false: whatever the procedure returns is accepted, for every hash function, public key and message *)
Theorem C54_forged_accepted : forall H I c, regular I -> init_extension_field (lambda I) = Ok c ->
  forall pk msg salt seeds, str (2 * pt_size I) pk -> str 32 salt -> length seeds = num_rounds I -> Forall (str (seed_size I)) seeds ->
  forall fuel garb sig, 1 <= fuel -> forge H fuel garb I pk msg salt seeds = Ok sig ->
  sig_shape I sig /\ forall fuel' garb' st, fuel <= fuel' -> snd (verify H fuel' garb' st I pk sig msg) = Ok true.
Proof. exact forged_accepted. Qed.
Print Assumptions C54_forged_accepted.
(** it returns a signature whenever no point drawn is among the first 2*m2 (at most 52) field elements *)
Theorem C54_forger_returns : forall H I c, regular I -> init_extension_field (lambda I) = Ok c ->
  forall pk msg salt seeds, str (2 * pt_size I) pk -> str 32 salt -> length seeds = num_rounds I -> Forall (str (seed_size I)) seeds ->
  forall fuel garb Rs, 1 <= fuel -> forge_points_drawn H fuel I pk msg salt seeds = Ok Rs ->
  (forall R, In R Rs -> ~ In R (get_first_n_field_elements c (2 * m2 I))) -> exists sig, forge H fuel garb I pk msg salt seeds = Ok sig.
Proof. exact forge_succeeds. Qed.
Print Assumptions C54_forger_returns.
(** the points are successive output blocks of the hash function that are not among the first m2 field elements; drawing
    them fails only if that many successive blocks are *)
Theorem C54_points_drawn : forall H I c, regular I -> init_extension_field (lambda I) = Ok c ->
  forall pk msg salt seeds, str (2 * pt_size I) pk -> str 32 salt -> length seeds = num_rounds I -> Forall (str (seed_size I)) seeds ->
  forall fuel, 1 <= fuel ->
  (exists Rs h2 k, forge_points_drawn H fuel I pk msg salt seeds = Ok Rs /\ length Rs = num_rounds I /\
     Rs = filter (fun R => negb (existsb (N.eqb R) (get_first_n_field_elements c (m2 I)))) (map (R_candidate H I h2) (seq 0 k))) \/
  (forge_points_drawn H fuel I pk msg salt seeds = OutOfFuel /\
   exists h2 k, forall i, i < fuel -> In (R_candidate H I h2 (k + i)) (get_first_n_field_elements c (m2 I))).
Proof. exact points_drawn. Qed.
Print Assumptions C54_points_drawn.
(** a public key that no secret key belongs to: the sets with two blocks have such keys *)
Theorem C54_no_key : forall I, regular I -> key_size (i_aes I) <> 16 -> forall key, ~ secret_key_for I keyless_pk key.
Proof. exact (fun I HB Hk key => keyless I key HB Hk). Qed.
Print Assumptions C54_no_key.
(** so a signature is accepted for a public key that has no secret key *)
Theorem C54_refuted : exists H I pk, builtin I /\ str (2 * pt_size I) pk /\ (forall key, ~ secret_key_for I pk key) /\
  forall msg, exists sig, sig_shape I sig /\ forall fuel garb st, 1 <= fuel -> snd (verify H fuel garb st I pk sig msg) = Ok true.
Proof.
  exists all255, I11, keyless_pk. split; [exact I11_builtin|]. split; [split; [reflexivity|apply AesApi.isbytesb_ok; reflexivity]|].
  split; [intros key; apply keyless; [exact (builtin_regular _ I11_builtin)|discriminate]|]. intros msg. destruct (I11_case msg) as (Rs & sig & _ & _ & _ & S & V). exists sig. auto.
Qed.
Print Assumptions C54_refuted.
(** the hypotheses of the theorems above in one concrete run *)
Example C54_case : forall msg, exists Rs sig,
  forge_points_drawn all255 1 I11 keyless_pk msg (zeros 32) (repeat (zeros (seed_size I11)) (num_rounds I11)) = Ok Rs /\
  (forall c R, init_extension_field (lambda I11) = Ok c -> In R Rs -> ~ In R (get_first_n_field_elements c (2 * m2 I11))) /\
  forge all255 1 (fun _ => 0%N) I11 keyless_pk msg (zeros 32) (repeat (zeros (seed_size I11)) (num_rounds I11)) = Ok sig.
Proof. intros msg. destruct (I11_case msg) as (Rs & sig & A & B & C & _). exists Rs, sig. auto. Qed.
