(** The statements of PropFree about unused entries (C58). *)
From Coq Require Import Arith NArith List Bool Lia.
From Verif Require Import Prelude FieldModel Instances HashModel TreeModel TreeSpec TreeProofs TreeApi AesShares BanquetModel BanquetHash BanquetPure BanquetVerify Serialize BanquetApi ChallengeFacts SigSpec FreeSpec FreeApi FreeVerify FreeSafe FillerSpec FillerFacts.
Import ListNotations.

Lemma unused_entries H I fuel garb st pk sig msg e i v : proper I -> sig_shape I sig -> e < num_rounds I -> i < Nat.log2_up (num_parties I) ->
  snd (p_reveal (pf_of sig e)) < num_parties I -> unused (num_parties I) (snd (p_reveal (pf_of sig e))) i -> str (seed_size I) v ->
  sig_shape I (with_entry sig e i v) /\ verify H fuel garb st I pk (with_entry sig e i v) msg = verify H fuel garb st I pk sig msg.
Proof.
  intros P SS He Hi Hm U Hv. destruct (pr_parties _ P) as [H2 HN].
  assert (HL : leaves_ok (num_parties I)) by (split; [exact H2|]; apply N.lt_le_incl, (N.lt_trans _ 65536); [exact HN|reflexivity]).
  split; [apply (with_entry_shape I sig e i v); try assumption; exact (pr_seed _ P)|].
  unfold verify, with_field. destruct (st_init st (lambda I)) as [[c|] [[]| | |]]; try reflexivity.
  rewrite (body_same H I c sig e i v HL (pr_seed _ P) SS He Hi Hv Hm U). reflexivity.
Qed.
Lemma unused_malleable H I kf r kp msg fuel garb st st' sig e i : proper I -> near_power (num_parties I) -> rng_bytes r -> keygen kf I r = Ok kp ->
  sign H fuel garb st I kp msg = (st', Ok sig) -> e < num_rounds I -> i < Nat.log2_up (num_parties I) -> unused (num_parties I) (snd (p_reveal (pf_of sig e))) i ->
  exists sig' ser ser', serialize st' I sig = Ok ser /\ serialize st' I sig' = Ok ser' /\ length ser' = length ser /\ ser' <> ser /\
    (forall fuel2 garb2, fuel <= fuel2 -> deserialize H fuel2 garb2 st' I ser' = Ok sig') /\
    forall fuel2 garb2 st2, fuel <= fuel2 -> snd (verify H fuel2 garb2 st2 I (snd kp) sig' msg) = Ok true.
Proof.
  intros P NP HR EK ES He Hi U.
  destruct (free_honest H I kf r kp msg fuel garb st st' sig P NP HR EK ES) as [HV _].
  destruct (free_cases I kf r kp P NP HR EK) as (c & key & pt & ct & OK & -> & Hk & Hp & Hct).
  destruct (sign_shape H I c (nk_of I) OK key pt ct Hk Hp Hct fuel garb st msg sig st' ES) as (-> & SS & M). destruct (pr_parties _ P) as [H2 HN].
  assert (N1 : 1 <= num_parties I) by lia.
  assert (Hm : snd (p_reveal (pf_of sig e)) < num_parties I).
  { destruct (phase_3_outcome H I N1 fuel garb (s_h3 sig)) as [Z|(l & Z & _ & F & _)]; rewrite (M fuel garb (le_n _)) in Z; [discriminate Z|]. injection Z as <-.
    rewrite Forall_forall in F. apply F. apply (in_map (fun p => snd (p_reveal p))). apply nth_In. rewrite (ss_len _ _ SS). exact He. }
  assert (Le : e < length (s_proofs sig)) by (rewrite (ss_len _ _ SS); exact He).
  assert (SP : proof_shape I (pf_of sig e)) by (pose proof (ss_proofs _ _ SS) as F; rewrite Forall_forall in F; apply F; apply nth_In; exact Le).
  assert (Li : i < length (fst (p_reveal (pf_of sig e)))).
  { rewrite (ps_entries _ _ SP). rewrite ceil_log2_depth; [exact Hi|]. split; [lia|]. apply (N.lt_trans _ 65536); [exact HN|reflexivity]. }
  assert (V : exists v, str (seed_size I) v /\ v <> nth i (fst (p_reveal (pf_of sig e))) []).
  { pose proof (pr_seed _ P) as [S1 _]. set (x := nth i (fst (p_reveal (pf_of sig e))) []).
    destruct (list_eq_dec N.eq_dec (repeat 0%N (seed_size I)) x) as [E|E].
    - exists (repeat 1%N (seed_size I)). split; [split; [apply repeat_length|apply Forall_forall; intros y Y; apply repeat_spec in Y; rewrite Y; reflexivity]|].
      rewrite <- E. destruct (seed_size I); [lia|]. discriminate.
    - exists (repeat 0%N (seed_size I)). split; [split; [apply repeat_length|apply Forall_forall; intros y Y; apply repeat_spec in Y; rewrite Y; reflexivity]|exact E]. }
  destruct V as (v & Hv & Nv).
  assert (SS' : sig_shape I (with_entry sig e i v)) by (apply (unused_entries H I fuel garb st pt sig msg e i v P SS He Hi Hm U Hv)).
  destruct (serialize_ok I c (io_field _ _ _ OK) sig SS) as (A & B & _). destruct (serialize_ok I c (io_field _ _ _ OK) _ SS') as (A' & B' & _).
  assert (M' : forall fuel2 garb2, fuel <= fuel2 -> phase_3_expand H I fuel2 garb2 (s_h3 (with_entry sig e i v)) = Ok (map (fun p => snd (p_reveal p)) (s_proofs (with_entry sig e i v)))).
  { intros fuel2 garb2 Hf. cbn [with_entry s_h3 s_proofs]. rewrite (M fuel2 garb2 Hf). f_equal. symmetry.
    apply (replaced_map (fun p => snd (p_reveal p)) _ _ _ (mkProof ([], 0) [] [] [] [] 0%N [] []) Le). reflexivity. }
  assert (D' : forall fuel2 garb2, fuel <= fuel2 -> deserialize H fuel2 garb2 (Some c) I (enc_sig I (with_entry sig e i v)) = Ok (with_entry sig e i v)).
  { intros fuel2 garb2 Hf. apply (roundtrip_sig I c (io_field _ _ _ OK) H fuel2 garb2); auto; lia. }
  assert (D : forall fuel2 garb2, fuel <= fuel2 -> deserialize H fuel2 garb2 (Some c) I (enc_sig I sig) = Ok sig).
  { intros fuel2 garb2 Hf. apply (roundtrip_sig I c (io_field _ _ _ OK) H fuel2 garb2); auto; lia. }
  exists (with_entry sig e i v), (enc_sig I sig), (enc_sig I (with_entry sig e i v)). split; [exact A|]. split; [exact A'|]. split; [rewrite B, B'; reflexivity|]. split; [|split; [exact D'|]].
  - intros E. pose proof (D' fuel garb (le_n _)) as X. rewrite E, (D fuel garb (le_n _)) in X. injection X as X. apply Nv. symmetry.
    assert (Y : pf_of sig e = pf_of (with_entry sig e i v) e) by (rewrite <- X; reflexivity).
    rewrite Y. unfold pf_of at 1. cbn [with_entry s_proofs]. rewrite replaced_nth by exact Le. rewrite Nat.eqb_refl. cbn [p_reveal fst]. rewrite replaced_nth by exact Li. rewrite Nat.eqb_refl. reflexivity.
  - intros fuel2 garb2 st2 Hf. cbn [snd]. rewrite (proj2 (unused_entries H I fuel2 garb2 st2 (pt ++ ct) sig msg e i v P SS He Hi Hm U Hv)). exact (HV fuel2 garb2 st2 Hf).
Qed.
