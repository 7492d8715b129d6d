(** Property theorems about signing with a key pair that key generation did not make (C61): key, plaintext pt and ciphertext
    ct have the prescribed lengths, but ct need not be the encryption of pt, and some S-box input may be zero.
    [cipher], [block_sbox_inputs], [key_sbox_inputs] are FIPS-197 (AesSpec); [is_transcript], [h1_input], [collides] are in SigSpec. *)
From Coq Require Import Arith NArith List Bool Lia.
From Verif Require Import Prelude FieldModel FieldSpec Instances HashModel TreeSpec AesSpec AesModel AesApi AesShares BanquetModel BanquetVerify Serialize BanquetApi SigSpec ShareFacts AcceptFacts ZeroKey WrongKey PropSign SignFacts KeygenBad VerifyCases FreeSpec.
Import ListNotations.

(** what AES makes of the plaintext in the key pair *)
Definition encryption (I : instance) (key pt : bytes) : bytes := flat_map (cipher (nk_of I) key) (blocks (nk_of I) pt).
(** some S-box input, in the key schedule or in a block, is zero *)
Definition zero_sbox_input (I : instance) (key pt : bytes) : Prop :=
  In 0%N (key_sbox_inputs (nk_of I) key ++ flat_map (block_sbox_inputs (nk_of I) key) (blocks (nk_of I) pt)).

(** Without a zero S-box input signing returns a signature, whatever the ciphertext in the pair, or is still drawing an
    evaluation point.  Missing: keys with a zero S-box input, see C61_refuted. *)
Theorem C61_returns_partial : forall H I c fuel garb st key pt ct msg, regular I -> init_extension_field (lambda I) = Ok c ->
  str (key_size (i_aes I)) key -> str (pt_size I) pt -> str (pt_size I) ct -> ~ zero_sbox_input I key pt -> 1 <= fuel ->
  (exists sig, snd (sign H fuel garb st I (key, pt ++ ct) msg) = Ok sig) \/
  (snd (sign H fuel garb st I (key, pt ++ ct) msg) = OutOfFuel /\ exists h2 k, forall i, i < fuel ->
     In (from_bytes (stream H (digest_size I =? 32) h2 ((k + i) * lambda I) (lambda I))) (get_first_n_field_elements c (m2 I))).
Proof. exact wrong_returns. Qed.
Print Assumptions C61_returns_partial.
(** If the ciphertext is wrong, verification with the public key in the pair rejects the signature, or the inputs of h_1 for
    that public key and for the right one are different and have the same digest. *)
Theorem C61_rejected_partial : forall H I c fuel garb st key pt ct msg sig, regular I -> init_extension_field (lambda I) = Ok c ->
  str (key_size (i_aes I)) key -> str (pt_size I) pt -> str (pt_size I) ct -> ~ zero_sbox_input I key pt -> ct <> encryption I key pt ->
  snd (sign H fuel garb st I (key, pt ++ ct) msg) = Ok sig -> forall fuel2 garb2 st2, fuel <= fuel2 ->
  snd (verify H fuel2 garb2 st2 I (pt ++ ct) sig msg) = Ok false \/
  (snd (verify H fuel2 garb2 st2 I (pt ++ ct) sig msg) = Ok true /\
   (exists X, is_transcript H I c (pt ++ ct) sig X) /\ (exists X, is_transcript H I c (pt ++ encryption I key pt) sig X) /\
   forall X X', is_transcript H I c (pt ++ ct) sig X -> is_transcript H I c (pt ++ encryption I key pt) sig X' ->
   collides (digest H I) (h1_input I (s_salt sig) (pt ++ ct) msg (pf_of sig) X) (h1_input I (s_salt sig) (pt ++ ct) msg (pf_of sig) X')).
Proof.
  exact (fun H I c fuel garb st key pt ct msg sig HB Hc Hk Hp Hct Hz Ne ES fuel2 garb2 st2 Hf =>
    wrong_key H I c HB Hc key pt _ ct Hk Hp (true_ct I c key pt (inst_with I c HB Hc) Hk Hp Hz) Hct fuel garb st msg sig ES Ne fuel2 garb2 st2 Hf).
Qed.
Print Assumptions C61_rejected_partial.
(** The same for verification with the public key that belongs to the secret key. *)
Theorem C61_right_public_key_partial : forall H I c fuel garb st key pt ct msg sig, regular I -> init_extension_field (lambda I) = Ok c ->
  str (key_size (i_aes I)) key -> str (pt_size I) pt -> str (pt_size I) ct -> ~ zero_sbox_input I key pt -> ct <> encryption I key pt ->
  snd (sign H fuel garb st I (key, pt ++ ct) msg) = Ok sig -> forall fuel2 garb2 st2, fuel <= fuel2 ->
  snd (verify H fuel2 garb2 st2 I (pt ++ encryption I key pt) sig msg) = Ok false \/
  (snd (verify H fuel2 garb2 st2 I (pt ++ encryption I key pt) sig msg) = Ok true /\
   (exists X, is_transcript H I c (pt ++ encryption I key pt) sig X) /\
   forall X, is_transcript H I c (pt ++ encryption I key pt) sig X ->
   collides (digest H I) (h1_input I (s_salt sig) (pt ++ encryption I key pt) msg (pf_of sig) X) (h1_input I (s_salt sig) (pt ++ ct) msg (pf_of sig) X)).
Proof.
  exact (fun H I c fuel garb st key pt ct msg sig HB Hc Hk Hp Hct Hz Ne ES fuel2 garb2 st2 Hf =>
    right_public_key H I c HB Hc key pt _ ct Hk Hp (true_ct I c key pt (inst_with I c HB Hc) Hk Hp Hz) Hct fuel garb st msg sig ES Ne fuel2 garb2 st2 Hf).
Qed.
Print Assumptions C61_right_public_key_partial.
(** With a zero S-box input every signing call writes past the end of a vector, also if the ciphertext is right. *)
Theorem C61_zero : forall H I fuel garb st key pt ct msg, regular I ->
  str (key_size (i_aes I)) key -> str (pt_size I) pt -> str (pt_size I) ct -> zero_sbox_input I key pt ->
  snd (sign H fuel garb st I (key, pt ++ ct) msg) = UB OutOfBounds.
Proof. exact zero_ub. Qed.
Print Assumptions C61_zero.

(** The first three theorems are not empty: a pair made by key generation with another ciphertext. *)
Example C61_case : regular I1 /\ exists key pt ct, str (key_size (i_aes I1)) key /\ str (pt_size I1) pt /\ str (pt_size I1) ct /\
  ~ zero_sbox_input I1 key pt /\ ct <> encryption I1 key pt /\
  forall garb st msg, exists sig, snd (sign ones 1 garb st I1 (key, pt ++ ct) msg) = Ok sig.
Proof.
  split; [exact (builtin_regular _ I1_builtin)|]. destruct C01_case as (B & R & kp & EK & _). destruct (key_cases I1 1 ex_rng kp B R EK) as (c & key & pt & ct & OK & -> & Hk & Hp & Hct).
  assert (Z : ~ zero_sbox_input I1 key pt) by (intros Z; apply (aes_none _ _ _ (inst_aes_in I1 c _ _ _ OK Hk Hp)) in Z; rewrite Hct in Z; discriminate Z).
  assert (X : exists x, str (pt_size I1) x /\ x <> encryption I1 key pt).
  { destruct (list_eq_dec N.eq_dec (zeros 16) (encryption I1 key pt)) as [E|E]; [|exists (zeros 16); split; [apply str_zeros|exact E]].
    exists (repeat 1%N 16). rewrite <- E. split; [split; [reflexivity|repeat constructor]|discriminate]. }
  destruct X as (x & Hx & Ne). exists key, pt, x. repeat (split; [assumption|]).
  intros garb st msg. destruct I1_field as [c' Hc].
  destruct (C61_returns_partial ones I1 c' 1 garb st key pt x msg B Hc Hk Hp Hx Z (le_n 1)) as [X|(_ & h2 & k & X)]; [exact X|]. exfalso.
  exact (allowed_255 c' h2 _ Hc (points_incl _ _ _ (X 0 (le_n 1)))).
Qed.
(** C61 as stated is false: a pair of the right lengths, with the right ciphertext, with which no signing call is safe. *)
Theorem C61_refuted : exists I key pt, builtin I /\ str (key_size (i_aes I)) key /\ str (pt_size I) pt /\ str (pt_size I) (encryption I key pt) /\
  forall H fuel garb st msg, snd (sign H fuel garb st I (key, pt ++ encryption I key pt) msg) = UB OutOfBounds.
Proof.
  assert (B : forall l, forallb (fun b => b <? 256)%N l = true -> is_bytes l).
  { intros l Q. apply Forall_forall. intros b Hb. apply N.ltb_lt. exact (proj1 (forallb_forall _ _) Q b Hb). }
  exists I1, (repeat 1%N 16), (repeat 1%N 16). split; [exact I1_builtin|]. assert (K : str 16 (repeat 1%N 16)) by (split; [reflexivity|apply B; reflexivity]).
  split; [exact K|]. split; [exact K|]. assert (E : str (pt_size I1) (encryption I1 (repeat 1%N 16) (repeat 1%N 16))) by (split; [vm_compute; reflexivity|apply B; vm_compute; reflexivity]).
  split; [exact E|]. intros H fuel garb st msg. apply (C61_zero H I1 fuel garb st (repeat 1%N 16) (repeat 1%N 16) _ msg (builtin_regular _ I1_builtin) K K E).
  destruct (builtin_inst_ok I1 I1_builtin) as [c OK]. apply (aes_none _ _ _ (inst_aes_in I1 c _ _ _ OK K K)). vm_compute. reflexivity.
Qed.
Print Assumptions C61_refuted.
