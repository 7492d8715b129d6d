(** Verification with freely chosen parameters, the number of parties being a power of two up to 256 (C58). *)
From Coq Require Import Arith NArith List Bool Lia.
From Verif Require Import Prelude FieldModel Instances HashModel AesShares BanquetModel BanquetPure BanquetVerify Serialize BanquetApi SigSpec AcceptFacts FreeSpec FreeApi.
Import ListNotations.

Lemma free_inst I c k : proper I -> num_parties I = 2 ^ k -> init_extension_field (lambda I) = Ok c -> inst_ok I c (nk_of I).
Proof.
  intros P HP Hc. destruct (proper_ok I P) as [c' OK]; [exists k; lia|]. assert (c' = c) as <- by (pose proof (io_field _ _ _ OK) as X; rewrite Hc in X; injection X as <-; reflexivity). exact OK.
Qed.
Lemma free_acceptance H I c k fuel garb st pk sig msg : proper I -> num_parties I = 2 ^ k -> k <= 8 -> init_extension_field (lambda I) = Ok c ->
  sig_shape I sig -> str (2 * pt_size I) pk -> 1 <= fuel ->
  match snd (verify H fuel garb st I pk sig msg) with
  | Ok b => (forall e, e < num_rounds I -> snd (p_reveal (pf_of sig e)) = hidden_of H I sig e) /\
            (exists X, is_transcript H I c pk sig X) /\ forall X, is_transcript H I c pk sig X -> (b = true <-> accepts H I c pk msg sig X)
  | Throw x => x = EModifiedSig /\ exists e, e < num_rounds I /\ snd (p_reveal (pf_of sig e)) <> hidden_of H I sig e
  | UB _ => False
  | OutOfFuel => exists k, forall i, i < fuel -> forbidden I c (candidate H I sig (k + i)) = true
  end.
Proof.
  intros P HP Hk Hc SS Hpk Hf. pose proof (free_inst I c k P HP Hc) as OK.
  assert (EV : snd (verify H fuel garb st I pk sig msg) = verify_body H I c fuel garb pk sig msg) by (unfold verify; rewrite (with_field_ok _ _ _ _ Hc); reflexivity).
  rewrite EV. destruct (body_cases H I c _ k OK HP Hk sig pk SS Hpk fuel garb msg Hf) as [[-> X]|[TX [[-> X]|[[b E] X]]]]; [exact X|split; [reflexivity|exact X]|].
  rewrite E. split; [exact X|]. split; [exact TX|]. intros X' TR. apply (proj1 (body_iff H I c _ k OK HP Hk sig pk SS Hpk fuel garb msg X' b Hf E TR)).
Qed.
Lemma free_shape H I kf r kp msg fuel garb st st' sig : proper I -> near_power (num_parties I) -> rng_bytes r -> keygen kf I r = Ok kp -> sign H fuel garb st I kp msg = (st', Ok sig) -> sig_shape I sig.
Proof.
  intros P NP HR EK ES. destruct (free_cases I kf r kp P NP HR EK) as (c & key & pt & ct & OK & -> & Hk & Hp & Hct).
  exact (proj1 (proj2 (sign_shape H I c (nk_of I) OK key pt ct Hk Hp Hct fuel garb st msg sig st' ES))).
Qed.
