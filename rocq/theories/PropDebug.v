(** Property theorems about builds with assertions (C64).  [d_keygen], [d_sign], [d_verify], [d_deserialize] (DebugModel) are the
    functions with their assertions: [Abort] if one fails, [Done] of the outcome otherwise.  [keygen], [sign], [verify],
    [deserialize] are the functions of a release build.  [zero_sbox_input] and [encryption] are in PropWrong, on top of FIPS-197. *)
From Coq Require Import Arith NArith List Bool Lia.
From Verif Require Import Prelude FieldModel FieldSpec Instances HashModel TreeSpec AesSpec AesModel AesApi AesShares BanquetModel BanquetPure BanquetVerify Serialize BanquetApi SigSpec ShareFacts KeygenFacts KeygenBad SignFacts WrongKey PropSign PropWrong PropSerial DebugModel DebugFacts FreeSpec.
Import ListNotations.

(** Key generation never fails an assertion, whatever the random source does. *)
Theorem C64_keygen : forall I fuel r, regular I -> d_keygen fuel I r = Done (keygen fuel I r).
Proof.
  intros I fuel r HB. destruct (regular_inst_ok I HB) as [c OK]. exact (d_keygen_done I r (pt_size_is I c _ OK) fuel 0 _ _ (repeat_length _ _) (repeat_length _ _)).
Qed.
Print Assumptions C64_keygen.
(** Neither does signing with a generated key. *)
Theorem C64_sign : forall H I kf r kp fuel garb st msg, regular I -> rng_bytes r -> keygen kf I r = Ok kp ->
  d_sign H fuel garb st I kp msg = Done (snd (sign H fuel garb st I kp msg)).
Proof.
  intros H I kf r kp fuel garb st msg HB HR EK. destruct (key_cases I kf r kp HB HR EK) as (c & key & pt & ct & OK & -> & Hk & Hp & Hct).
  exact (d_sign_right H I c HB (io_field _ _ _ OK) fuel garb st msg key pt ct Hk Hp Hct).
Qed.
Print Assumptions C64_sign.
(** Verification never does, for any public key, any signature structure and any message. *)
Theorem C64_verify : forall H I fuel garb st pk sig msg, regular I -> d_verify H fuel garb st I pk sig msg = Done (snd (verify H fuel garb st I pk sig msg)).
Proof. intros H I fuel garb st pk sig msg HB. destruct (regular_inst_ok I HB) as [c OK]. exact (d_verify_done H I c _ OK fuel garb st pk sig msg). Qed.
Print Assumptions C64_verify.
(** Signing with other key pairs: it aborts exactly if the secret key has the wrong length, an S-box input is zero, or the
    ciphertext is not the encryption of the plaintext. *)
Theorem C64_sign_any : forall H I fuel garb st key pt ct msg, regular I -> is_bytes key -> str (pt_size I) pt -> str (pt_size I) ct ->
  (d_sign H fuel garb st I (key, pt ++ ct) msg = Abort <-> length key <> key_size (i_aes I) \/ zero_sbox_input I key pt \/ ct <> encryption I key pt) /\
  (d_sign H fuel garb st I (key, pt ++ ct) msg <> Abort -> d_sign H fuel garb st I (key, pt ++ ct) msg = Done (snd (sign H fuel garb st I (key, pt ++ ct) msg))).
Proof.
  intros H I fuel garb st key pt ct msg HB Bk Hp Hct. destruct (regular_inst_ok I HB) as [c OK]. pose proof (io_field _ _ _ OK) as Hc.
  assert (G : (d_sign H fuel garb st I (key, pt ++ ct) msg = Abort /\ (length key <> key_size (i_aes I) \/ zero_sbox_input I key pt \/ ct <> encryption I key pt)) \/
    (d_sign H fuel garb st I (key, pt ++ ct) msg = Done (snd (sign H fuel garb st I (key, pt ++ ct) msg)) /\ ~ (length key <> key_size (i_aes I) \/ zero_sbox_input I key pt \/ ct <> encryption I key pt))).
  { destruct (Nat.eq_dec (length key) (key_size (i_aes I))) as [Lk|Lk].
    2:{ left. split; [exact (d_sign_key_len H I c HB Hc fuel garb st msg key pt ct Lk (proj1 Hp) (proj1 Hct))|left; exact Lk]. }
    assert (Hk : str (key_size (i_aes I)) key) by (split; assumption). pose proof (inst_aes_in I c _ _ _ OK Hk Hp) as Hin. destruct (aes_n (nk_of I) key pt) as [x|] eqn:E.
    - pose proof (aes_correct _ _ _ _ Hin E) as Ex. change (x = encryption I key pt) in Ex.
      assert (Z : ~ zero_sbox_input I key pt) by (intros Z; apply (aes_none _ _ _ Hin) in Z; rewrite E in Z; discriminate Z).
      destruct (list_eq_dec N.eq_dec ct x) as [->|Ne].
      + right. split; [exact (d_sign_right H I c HB Hc fuel garb st msg key pt x Hk Hp E)|]. intros [A|[A|A]]; contradiction.
      + left. split; [exact (d_sign_mismatch H I c HB Hc fuel garb st msg key pt ct x Hk Hp (proj1 Hct) E Ne)|]. right. right. rewrite <- Ex. exact Ne.
    - left. split; [exact (d_sign_zero H I c HB Hc fuel garb st msg key pt ct Hk Hp (proj1 Hct) E)|]. right. left. apply (aes_none _ _ _ Hin). exact E. }
  split; [|intros Na]; destruct G as [[G1 G2]|[G1 G2]].
  - split; auto.
  - split; intros X; [rewrite X in G1; discriminate G1|contradiction].
  - contradiction.
  - exact G1.
Qed.
Print Assumptions C64_sign_any.
(** Deserialization aborts exactly if the string has another length than a serialized signature and was not read out of bounds;
    so it aborts for every longer string, which the release build accepts. *)
Theorem C64_deserialize : forall H fuel garb st I ser, regular I ->
  d_deserialize H fuel garb st I ser =
  match deserialize H fuel garb st I ser with Ok sig => if length ser =? sig_size I then Done (Ok sig) else Abort | r => Done r end.
Proof. intros H fuel garb st I ser HB. destruct (regular_inst_ok I HB) as [c OK]. apply d_deserialize_is. exact (io_N _ _ _ OK). Qed.
Print Assumptions C64_deserialize.
Theorem C64_trailing : forall H fuel garb I st ser, regular I -> st_init None (lambda I) = (st, Ok tt) -> 1 <= fuel -> is_bytes ser ->
  (d_deserialize H fuel garb st I ser = Abort <-> sig_size I < length ser) /\
  ((exists sig, d_deserialize H fuel garb st I ser = Done (Ok sig)) <-> length ser = sig_size I).
Proof.
  intros H fuel garb I st ser HB HS Hf B. rewrite (C64_deserialize H fuel garb st I ser HB). destruct (C08_deserialize_partial H fuel garb I st ser HB HS Hf B) as [[A1 A2] _].
  destruct (Nat.eqb_spec (length ser) (sig_size I)) as [E|E].
  - destruct (A1 ltac:(lia)) as [sig ->]. split; split; try discriminate; try lia; eauto.
  - destruct (deserialize H fuel garb st I ser) as [sig|x|u|] eqn:D.
    + pose proof (A2 (ex_intro _ sig eq_refl)). split; split; try lia; auto; intros [? X]; discriminate X.
    + split; split; try discriminate; try lia; [|intros [? X]; discriminate X]. intros L. destruct (A1 ltac:(lia)) as [s X]. discriminate X.
    + split; split; try discriminate; try lia; [|intros [? X]; discriminate X]. intros L. destruct (A1 ltac:(lia)) as [s X]. discriminate X.
    + split; split; try discriminate; try lia; [|intros [? X]; discriminate X]. intros L. destruct (A1 ltac:(lia)) as [s X]. discriminate X.
Qed.
Print Assumptions C64_trailing.

(** Concrete cases: a generated key with which signing returns; the same with another ciphertext aborts; one byte too much. *)
Example C64_case : regular I1 /\ rng_bytes ex_rng /\ exists kp, keygen 1 I1 ex_rng = Ok kp /\
  (exists msg garb st sig, d_sign ones 1 garb st I1 kp msg = Done (Ok sig)) /\
  (exists key pt ct, is_bytes key /\ str (pt_size I1) pt /\ str (pt_size I1) ct /\ forall msg garb st, d_sign ones 1 garb st I1 (key, pt ++ ct) msg = Abort) /\
  (exists st, st_init None (lambda I1) = (st, Ok tt) /\ d_deserialize ones 1 (fun _ => 0%N) st I1 (s255 ++ [0%N]) = Abort).
Proof.
  destruct C01_case as (B & R & kp & EK & ES). split; [exact B|]. split; [exact R|]. exists kp. split; [exact EK|]. split; [|split].
  - destruct (ES (fun _ => 0%N) None []) as [sig X]. exists [], (fun _ => 0%N), None, sig. rewrite (C64_sign ones I1 1 ex_rng kp 1 _ None [] B R EK), X. reflexivity.
  - destruct C61_case as (_ & key & pt & ct & Hk & Hp & Hct & _ & Ne & _). exists key, pt, ct. split; [apply Hk|]. split; [exact Hp|]. split; [exact Hct|]. intros msg garb st.
    apply (C64_sign_any ones I1 1 garb st key pt ct msg B (proj2 Hk) Hp Hct). right. right. exact Ne.
  - destruct C04_case as (_ & [st HS] & Bs & Ls & _). exists st. split; [exact HS|]. apply (C64_trailing ones 1 (fun _ => 0%N) I1 st (s255 ++ [0%N]) B HS (le_n 1)).
    + apply Forall_app. split; [exact Bs|]. constructor; [reflexivity|constructor].
    + rewrite app_length. change (length [0%N]) with 1. rewrite Ls. lia.
Qed.
