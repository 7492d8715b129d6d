(** Property theorems about the signature as a function of the key, the public key and the message (C71).
    [prescribed H I c key pt ct s t msg sig X] (HonestSpec.v): sig is the signature of msg by the secret key key for the public
    key (pt, ct), X e are the values of its repetition e, and s and t are the inputs and outputs of the S-boxes when pt is
    encrypted.  H is the hash function. *)
From Coq Require Import Arith NArith ZArith List Bool Lia.
From Verif Require Import Prelude FieldModel FieldSpec Instances HashModel AesModel AesShares BanquetModel FreeSpec BanquetApi SigSpec HonestSpec HonestFacts BanquetPure BanquetSign BanquetRun ShareFacts SignFacts PropSign.
Import ListNotations.

(** C71: whatever sign returns, in any state of the program, is the prescribed signature.  The second half of the public
    key need not be the ciphertext of the first one under the key. *)
Theorem C71_signature : forall H I c key pt ct0 ct s t msg, regular I -> init_extension_field (lambda I) = Ok c ->
  str (key_size (i_aes I)) key -> str (pt_size I) pt -> length ct = pt_size I ->
  aes_with_sbox_output (key_size (i_aes I)) key pt = Ok ((s, t), Some ct0) ->
  forall fuel garb st st' sig, sign H fuel garb st I (key, pt ++ ct) msg = (st', Ok sig) ->
  exists X, prescribed H I c key pt ct s t msg sig X.
Proof. exact api_signature. Qed.
Print Assumptions C71_signature.

(** C71: there is at most one prescribed signature: the description leaves no choice. *)
Theorem C71_unique : forall H I c key pt ct s t msg, regular I -> init_extension_field (lambda I) = Ok c ->
  forall sig sig' X X', prescribed H I c key pt ct s t msg sig X -> prescribed H I c key pt ct s t msg sig' X' -> sig = sig'.
Proof. exact api_unique. Qed.
Print Assumptions C71_unique.

(** C71: if there is a prescribed signature then sign returns it, in every state; fuel bounds the number of candidates for
    one evaluation point. *)
Theorem C71_returned : forall H I c key pt ct0 ct s t msg, regular I -> init_extension_field (lambda I) = Ok c ->
  str (key_size (i_aes I)) key -> str (pt_size I) pt -> length ct = pt_size I ->
  aes_with_sbox_output (key_size (i_aes I)) key pt = Ok ((s, t), Some ct0) ->
  forall sig X, prescribed H I c key pt ct s t msg sig X ->
  exists fuel0, forall fuel garb st, fuel0 <= fuel -> snd (sign H fuel garb st I (key, pt ++ ct) msg) = Ok sig.
Proof. exact api_returned. Qed.
Print Assumptions C71_returned.

(** A case with a prescribed signature: the first parameter set, a key drawn by keygen and a hash function whose every
    output byte is 255. *)
Example C71_case : regular I1 /\ exists c key pt ct s t, init_extension_field (lambda I1) = Ok c /\
  str (key_size (i_aes I1)) key /\ str (pt_size I1) pt /\ length ct = pt_size I1 /\
  aes_with_sbox_output (key_size (i_aes I1)) key pt = Ok ((s, t), Some ct) /\
  forall msg, exists sig X, prescribed ones I1 c key pt ct s t msg sig X.
Proof.
  destruct C01_case as (B & R & kp & EK & HS). destruct (key_cases I1 1 ex_rng kp B R EK) as (c & key & pt & ct & OK & -> & Hk & Hp & Hct).
  split; [exact B|]. destruct (valid_key I1 c _ key pt ct OK Hk Hp Hct) as (s & t & KO). pose proof (proj1 (ct_str I1 c _ OK key pt ct s t KO)) as Lc.
  assert (E : aes_with_sbox_output (key_size (i_aes I1)) key pt = Ok ((s, t), Some ct)) by (rewrite (save_ok I1 c _ OK key pt Hk Hp); f_equal; exact (ko_run _ _ _ _ _ _ _ KO)).
  exists c, key, pt, ct, s, t. split; [exact (io_field _ _ _ OK)|]. repeat (split; [assumption|]). intros msg. destruct (HS (fun _ => 0%N) None msg) as [sig ES].
  exists sig. destruct (sign ones 1 (fun _ => 0%N) None I1 (key, pt ++ ct) msg) as [st' r] eqn:EE. cbn [snd] in ES. subst r.
  exact (C71_signature ones I1 c key pt ct ct s t msg B (io_field _ _ _ OK) Hk Hp Lc E _ _ _ _ _ EE).
Qed.
