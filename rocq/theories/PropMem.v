(** Property theorems about the flat buffers of signing and verifying (C76).  [m_sign] and [m_verify] (MemModel.v) keep the
    values of all repetitions and parties one after the other in one vector each and write through spans, as the program
    does; [sign] and [verify], about which the other theorems speak, have a separate list for each of them.  The arguments are the
    same.  [proper], [near_power]: FreeSpec.v; [sig_shape]: all vectors of a signature have the prescribed lengths. *)
From Coq Require Import Arith NArith ZArith List Bool Lia.
From Verif Require Import Prelude FieldModel Instances HashModel AesModel AesShares BanquetModel BanquetPure Serialize BanquetApi FreeSpec FreeApi FreeSafe FreeVerify SigSpec AnySpec ChallengeFacts AcceptFacts KeygenBad VerifyCases PropSign LooseSpec MemModel MemBody MemLoose MemSpill.
Import ListNotations.

(** C76: signing with flat buffers does what signing with separate ones does, unless the latter is undefined: the same
    signature, exception or endless loop, and the same field afterwards.  For any key and message. *)
Theorem C76_sign : forall H I fuel garb st kp msg, proper I -> (forall r, snd (sign H fuel garb st I kp msg) <> UB r) ->
  m_sign H fuel garb st I kp msg = sign H fuel garb st I kp msg.
Proof. intros H I fuel garb st kp msg HI. exact (sign_sim H fuel garb st I kp msg HI). Qed.
Print Assumptions C76_sign.
(** C76: likewise verification, for any public key, signature object and message. *)
Theorem C76_verify : forall H I fuel garb st pk sig msg, proper I -> (forall r, snd (verify H fuel garb st I pk sig msg) <> UB r) ->
  m_verify H fuel garb st I pk sig msg = verify H fuel garb st I pk sig msg.
Proof. intros H I fuel garb st pk sig msg HI. exact (verify_sim H fuel garb st I pk sig msg HI). Qed.
Print Assumptions C76_verify.

Lemma field_of I : proper I -> exists c, init_extension_field (lambda I) = Ok c.
Proof. intros P. destruct (pr_lambda _ P) as [<-|[<-|[<-|[<-|[]]]]]; eexists; reflexivity. Qed.
(** C76: so with a generated key signing is the same in both, *)
Theorem C76_sign_honest : forall H I kf r kp msg fuel garb st, proper I -> near_power (num_parties I) -> rng_bytes r -> keygen kf I r = Ok kp ->
  m_sign H fuel garb st I kp msg = sign H fuel garb st I kp msg.
Proof.
  intros H I kf r kp msg fuel garb st P NP R K. apply C76_sign; [exact P|]. destruct (field_of I P) as [c Hc].
  destruct (free_returns H I c kf r kp msg fuel garb st P NP Hc R K) as [[sig ->]|[-> _]]; discriminate.
Qed.
Print Assumptions C76_sign_honest.
(** C76: and verification of any signature of the right shape under any public key of the right length. *)
Theorem C76_verify_shaped : forall H I fuel garb st pk sig msg, proper I -> sig_shape I sig -> str (2 * pt_size I) pk ->
  m_verify H fuel garb st I pk sig msg = verify H fuel garb st I pk sig msg.
Proof.
  intros H I fuel garb st pk sig msg P SS Sp. apply C76_verify; [exact P|]. intros u. destruct (field_of I P) as [c Hc]. intros E.
  pose proof (free_any H I c fuel garb st pk sig msg P Hc SS Sp) as F. rewrite E in F. exact F.
Qed.
Print Assumptions C76_verify_shaped.
(** C76: honest signatures verify, said of the program with flat buffers alone. *)
Theorem C76_honest : forall H I kf r kp msg fuel garb st st' sig, proper I -> near_power (num_parties I) -> rng_bytes r -> keygen kf I r = Ok kp ->
  m_sign H fuel garb st I kp msg = (st', Ok sig) -> forall fuel2 garb2 st2, fuel <= fuel2 -> snd (m_verify H fuel2 garb2 st2 I (snd kp) sig msg) = Ok true.
Proof.
  intros H I kf r kp msg fuel garb st st' sig P NP R K E fuel2 garb2 st2 Hf. rewrite (C76_sign_honest H I kf r kp msg fuel garb st P NP R K) in E.
  assert (V := proj1 (free_honest H I kf r kp msg fuel garb st st' sig P NP R K E) fuel2 garb2 st2 Hf).
  rewrite (C76_verify H I fuel2 garb2 st2 (snd kp) sig msg P); [exact V|]. intros u. rewrite V. discriminate.
Qed.
Print Assumptions C76_honest.
(** C76: what it accepts (the relations of SigSpec.v and AnySpec.v, as in C58), for every number of parties from 2 to 65535; *)
Theorem C76_acceptance : forall H I c fuel garb st pk sig msg, proper I -> init_extension_field (lambda I) = Ok c ->
  sig_shape I sig -> str (2 * pt_size I) pk ->
  match snd (m_verify H fuel garb st I pk sig msg) with
  | Ok b => drawn_parties H I (s_h3 sig) (map (fun e => snd (p_reveal (pf_of sig e))) (seq 0 (num_rounds I))) /\
            (exists X, is_transcript_any H I c pk sig X) /\ forall X, is_transcript_any H I c pk sig X -> (b = true <-> accepts H I c pk msg sig X)
  | Throw x => x = EModifiedSig /\ exists ms, drawn_parties H I (s_h3 sig) ms /\ map (fun e => snd (p_reveal (pf_of sig e))) (seq 0 (num_rounds I)) <> ms
  | UB _ => False
  | OutOfFuel => (exists k, forall i, i < fuel -> forbidden I c (candidate H I sig (k + i)) = true) \/
                 (exists k, forall i, i < fuel -> num_parties I <= party_candidate H I (s_h3 sig) (k + i))
  end.
Proof.
  intros H I c fuel garb st pk sig msg P Hc SS Sp. rewrite C76_verify_shaped; [exact (free_any H I c fuel garb st pk sig msg P Hc SS Sp)|exact P|exact SS|exact Sp].
Qed.
Print Assumptions C76_acceptance.
(** C76: for 2, 4, 8, ... or 256 parties the relations of SigSpec.v alone, as in C41 and C42. *)
Theorem C76_acceptance_power : forall H I c k fuel garb st pk sig msg, proper I -> num_parties I = 2 ^ k -> k <= 8 -> init_extension_field (lambda I) = Ok c ->
  sig_shape I sig -> str (2 * pt_size I) pk -> 1 <= fuel ->
  match snd (m_verify H fuel garb st I pk sig msg) with
  | Ok b => (forall e, e < num_rounds I -> snd (p_reveal (pf_of sig e)) = hidden_of H I sig e) /\
            (exists X, is_transcript H I c pk sig X) /\ forall X, is_transcript H I c pk sig X -> (b = true <-> accepts H I c pk msg sig X)
  | Throw x => x = EModifiedSig /\ exists e, e < num_rounds I /\ snd (p_reveal (pf_of sig e)) <> hidden_of H I sig e
  | UB _ => False
  | OutOfFuel => exists k, forall i, i < fuel -> forbidden I c (candidate H I sig (k + i)) = true
  end.
Proof.
  intros H I c k fuel garb st pk sig msg P HP Hk Hc SS Sp Hf. rewrite C76_verify_shaped; [exact (free_acceptance H I c k fuel garb st pk sig msg P HP Hk Hc SS Sp Hf)|exact P|exact SS|exact Sp].
Qed.
Print Assumptions C76_acceptance_power.

(** C76, finding: the length of a signature's commitment is not checked, and what is too long is written into the slots of
    the next parties.  For every signature object and every repetition there are k bytes that can be appended to the
    commitment (as long as it then ends inside the vector) without changing the outcome. *)
Theorem C76_spill : forall H I fuel garb pk sig e p k, e < num_rounds I -> nth_error (s_proofs sig) e = Some p ->
  (e * num_parties I + snd (p_reveal p)) * digest_size I + length (p_C p) + k <= num_rounds I * num_parties I * digest_size I ->
  exists D, length D = k /\ forall st msg, m_verify H fuel garb st I pk (with_commitment sig e (p_C p ++ D)) msg = m_verify H fuel garb st I pk sig msg.
Proof. intros H I fuel garb pk sig e p k He Ep L. rewrite Nat.mul_add_distr_r in L. exact (spill H I sig e p Ep He fuel garb pk k L). Qed.
Print Assumptions C76_spill.
(** So slots are not kept apart for every signature object: there is an accepted signature and another object, with a
    commitment of twice the length, that is accepted as well although [verify], with separate buffers, has undefined behaviour. *)
Theorem C76_spill_accepted_refuted : exists H I pk msg sig, builtin I /\ sig_shape I sig /\
  forall fuel garb st, 1 <= fuel -> snd (m_verify H fuel garb st I pk sig msg) = Ok true /\
    exists sig', snd (m_verify H fuel garb st I pk sig' msg) = Ok true /\ sig' <> sig /\ ~ sig_shape I sig' /\
      (exists p, nth_error (s_proofs sig') 0 = Some p /\ length (p_C p) = 2 * digest_size I) /\
      forall b, snd (verify H fuel garb st I pk sig' msg) <> Ok b.
Proof.
  destruct (case_sign 64 allowed_64) as (kp & _ & Hp & S). destruct (S []) as (sig & SS & V). pose proof (rg_proper _ (builtin_regular _ I1_builtin)) as P.
  exists (same 64), I1, (snd kp), [], sig. split; [exact I1_builtin|]. split; [exact SS|]. intros fuel garb st Hf.
  assert (VM : snd (m_verify (same 64) fuel garb st I1 (snd kp) sig []) = Ok true).
  { rewrite (C76_verify (same 64) I1 fuel garb st (snd kp) sig [] P); [exact (V fuel garb st Hf)|]. intros u. rewrite (V fuel garb st Hf). discriminate. }
  split; [exact VM|].
  pose proof (ss_len _ _ SS) as L. change (num_rounds I1) with 31 in L.
  destruct (nth_error (s_proofs sig) 0) as [p|] eqn:Ep; [|apply nth_error_None in Ep; lia].
  pose proof (proj1 (Forall_forall _ _) (ss_proofs _ _ SS) p (nth_error_In _ _ Ep)) as PS.
  assert (LC : length (p_C p) = digest_size I1) by (apply PS).
  assert (HM : snd (p_reveal p) < num_parties I1).
  { destruct I1_field as [c Hc]. pose proof (outcomes (same 64) I1 c (builtin_regular _ I1_builtin) Hc fuel garb st (snd kp) sig [] SS Hp Hf) as O. rewrite (V fuel garb st Hf) in O.
    specialize (O 0 ltac:(change (num_rounds I1) with 31; lia)). unfold pf_of in O. erewrite nth_error_nth in O by exact Ep. rewrite O. unfold hidden_of. change (num_parties I1) with 64.
    match goal with |- N.to_nat (?x mod ?y) < _ => pose proof (N.mod_lt x y ltac:(discriminate)) as Q; change y with 64%N in *; lia end. }
  destruct (C76_spill (same 64) I1 fuel garb (snd kp) sig 0 p (digest_size I1)) as (D & LD & ED); [change (num_rounds I1) with 31; lia|exact Ep|rewrite LC; revert HM; change (num_rounds I1) with 31; change (digest_size I1) with 32; change (num_parties I1) with 64; lia|].
  exists (with_commitment sig 0 (p_C p ++ D)). split; [rewrite ED; exact VM|].
  assert (E0 : nth_error (s_proofs (with_commitment sig 0 (p_C p ++ D))) 0 = Some (with_C p (p_C p ++ D))).
  { rewrite (proofs_at sig 0 p Ep), (nth_upd_error _ _ _ _ _ Ep). reflexivity. }
  assert (LL : length (p_C p ++ D) = 2 * digest_size I1) by (rewrite app_length, LC, LD; lia).
  split. { intros X. rewrite X, Ep in E0. injection E0 as E0. apply (f_equal p_C) in E0. cbn [with_C p_C] in E0. apply (f_equal (@length _)) in E0. rewrite LL, LC in E0. discriminate E0. }
  split. { intros X. pose proof (proj1 (Forall_forall _ _) (ss_proofs _ _ X) _ (nth_error_In _ _ E0)) as Q. assert (LQ : length (p_C (with_C p (p_C p ++ D))) = digest_size I1) by (apply Q). cbn [with_C p_C] in LQ. rewrite LL in LQ. discriminate LQ. }
  split; [eexists; split; [exact E0|exact LL]|].
  intros b E. destruct (LooseFacts.verify_need _ _ _ _ _ _ _ _ _ E) as (_ & _ & B & _). destruct (B 0 _ ltac:(change (num_rounds I1) with 31; lia) E0) as [_ [Q _]]. cbn [with_C p_C] in Q. rewrite LL in Q. change (digest_size I1) with 32 in Q. lia.
Qed.
Print Assumptions C76_spill_accepted_refuted.

(** The theorems speak of real cases: 64 parties, a generated key, a signature of the right shape that is accepted. *)
Example C76_case : exists kp sig, proper I1 /\ near_power (num_parties I1) /\ (exists k, num_parties I1 = 2 ^ k /\ k <= 8) /\ keygen 1 I1 ex_rng = Ok kp /\ rng_bytes ex_rng /\
  sig_shape I1 sig /\ str (2 * pt_size I1) (snd kp) /\ forall fuel garb st, 1 <= fuel -> snd (m_verify (same 64) fuel garb st I1 (snd kp) sig []) = Ok true.
Proof.
  destruct (case_sign 64 allowed_64) as (kp & K & Hp & S). destruct (S []) as (sig & SS & V). pose proof (rg_proper _ (builtin_regular _ I1_builtin)) as P.
  exists kp, sig. split; [exact P|]. split; [exists 6; cbn; lia|]. split; [exists 6; cbn; lia|]. split; [exact K|]. split; [exact ex_rng_bytes|]. split; [exact SS|]. split; [exact Hp|].
  intros fuel garb st Hf. rewrite C76_verify; [apply V; exact Hf|exact P|]. intros u. rewrite V by exact Hf. discriminate.
Qed.
