(** Property theorems about what banquet_verify accepts (C39, C40, C41, C42, C45).
    [sig_shape I sig]: the components of sig have the sizes the parameter set prescribes; [str k b]: b is k bytes;
    [verify H fuel garb st I pk sig msg]: banquet_verify with hash function H, any process state st, garbage garb in
    uninitialised memory, at most fuel attempts to draw each evaluation point.  [is_transcript], [accepts], [h1_input],
    [collision_between], [same_but_last] are in SigSpec. *)
From Coq Require Import Arith NArith List Bool Lia.
From Verif Require Import Prelude FieldModel FieldSpec Instances HashModel TreeSpec AesShares BanquetModel BanquetVerify Serialize BanquetApi SerialFacts PropSign SigSpec AcceptFacts AlterFacts VerifyCases FreeSpec.
Import ListNotations.

(** C39: if one signature is accepted for two different pairs of public key and message, the inputs of h_1 in the two
    verifications are different and have the same digest. *)
Theorem C39_bound_to_message_and_key : forall H I c, regular I -> init_extension_field (lambda I) = Ok c ->
  forall fuel fuel' garb garb' st st' pk msg pk' msg' sig,
  sig_shape I sig -> str (2 * pt_size I) pk -> str (2 * pt_size I) pk' -> 1 <= fuel -> 1 <= fuel' ->
  snd (verify H fuel garb st I pk sig msg) = Ok true -> snd (verify H fuel' garb' st' I pk' sig msg') = Ok true -> (pk, msg) <> (pk', msg') ->
  (exists X, is_transcript H I c pk sig X) /\ (exists X, is_transcript H I c pk' sig X) /\
  forall X X', is_transcript H I c pk sig X -> is_transcript H I c pk' sig X' ->
  collides (digest H I) (h1_input I (s_salt sig) pk msg (pf_of sig) X) (h1_input I (s_salt sig) pk' msg' (pf_of sig) X').
Proof. exact binding. Qed.
Print Assumptions C39_bound_to_message_and_key.

(** C40, what holds: two accepted signatures with the same h_1 and h_3 give a collision, or they are equal up to the last
    correction of P in repetitions where it is not used.  Missing: that exception, which is real (see C40_refuted). *)
Theorem C40_unaltered_partial : forall H I c, regular I -> init_extension_field (lambda I) = Ok c ->
  forall fuel fuel' garb garb' st st' pk msg sig sig',
  sig_shape I sig -> sig_shape I sig' -> str (2 * pt_size I) pk -> 1 <= fuel -> 1 <= fuel' ->
  snd (verify H fuel garb st I pk sig msg) = Ok true -> snd (verify H fuel' garb' st' I pk sig' msg) = Ok true -> s_h1 sig = s_h1 sig' -> s_h3 sig = s_h3 sig' ->
  (exists X, is_transcript H I c pk sig X) /\ (exists X, is_transcript H I c pk sig' X) /\
  forall X X', is_transcript H I c pk sig X -> is_transcript H I c pk sig' X' -> collision_between H I pk msg sig sig' X X' \/ same_but_last I c sig sig' X.
Proof. exact unaltered. Qed.
Print Assumptions C40_unaltered_partial.
(** in particular they give a collision if they differ, no repetition leaves the first party closed and no evaluation
    point is among the first 2*m2 points *)
Theorem C40_unaltered_strict_partial : forall H I c, regular I -> init_extension_field (lambda I) = Ok c ->
  forall fuel fuel' garb garb' st st' pk msg sig sig' X X',
  sig_shape I sig -> sig_shape I sig' -> str (2 * pt_size I) pk -> 1 <= fuel -> 1 <= fuel' ->
  snd (verify H fuel garb st I pk sig msg) = Ok true -> snd (verify H fuel' garb' st' I pk sig' msg) = Ok true -> s_h1 sig = s_h1 sig' -> s_h3 sig = s_h3 sig' ->
  is_transcript H I c pk sig X -> is_transcript H I c pk sig' X' ->
  (forall e, e < num_rounds I -> x_hidden (X e) <> 0 /\ ~ In (x_point (X e)) (get_first_n_field_elements c (2 * m2 I))) -> sig <> sig' ->
  collision_between H I pk msg sig sig' X X'.
Proof. exact unaltered_strict. Qed.
Print Assumptions C40_unaltered_strict_partial.
(** conversely, for every hash function, every change of that kind gives another accepted signature, and both
    verifications hash the same strings *)
Theorem C40_malleable : forall H I c, regular I -> init_extension_field (lambda I) = Ok c ->
  forall fuel garb st pk msg sig sig' X, sig_shape I sig -> str (2 * pt_size I) pk -> 1 <= fuel ->
  snd (verify H fuel garb st I pk sig msg) = Ok true -> is_transcript H I c pk sig X -> same_but_last I c sig sig' X ->
  sig_shape I sig' /\ is_transcript H I c pk sig' X /\ ~ collision_between H I pk msg sig sig' X X /\
  forall garb' st', snd (verify H fuel garb' st' I pk sig' msg) = Ok true.
Proof. exact offset_free. Qed.
Print Assumptions C40_malleable.
(** C40 as stated is false: two different accepted signatures with the same h_1 and h_3 and no collision *)
Theorem C40_refuted : exists H I c pk msg sig sig' X, builtin I /\ init_extension_field (lambda I) = Ok c /\ str (2 * pt_size I) pk /\
  sig_shape I sig /\ sig_shape I sig' /\ sig <> sig' /\ s_h1 sig = s_h1 sig' /\ s_h3 sig = s_h3 sig' /\
  (forall fuel garb st, 1 <= fuel -> snd (verify H fuel garb st I pk sig msg) = Ok true) /\
  (forall fuel garb st, 1 <= fuel -> snd (verify H fuel garb st I pk sig' msg) = Ok true) /\
  is_transcript H I c pk sig X /\ is_transcript H I c pk sig' X /\ ~ collision_between H I pk msg sig sig' X X.
Proof.
  destruct I1_field as [c Hc]. destruct (case_sign 64 allowed_64) as (kp & _ & Hpk & S). destruct (S []) as (sig & SS & V). destruct (malleable 64 c (snd kp) sig [] Hc Hpk SS V eq_refl) as (sig' & X & A).
  exists (same 64), I1, c, (snd kp), [], sig, sig', X. split; [exact I1_builtin|]. tauto.
Qed.
Print Assumptions C40_refuted.

(** C41: when banquet_verify answers, the values described by [is_transcript] exist, and the answer is true exactly if
    they satisfy the three conditions of [accepts]. *)
Theorem C41_acceptance : forall H I c, regular I -> init_extension_field (lambda I) = Ok c -> forall fuel garb st pk sig msg b,
  sig_shape I sig -> str (2 * pt_size I) pk -> 1 <= fuel -> snd (verify H fuel garb st I pk sig msg) = Ok b ->
  (exists X, is_transcript H I c pk sig X) /\ forall X, is_transcript H I c pk sig X -> (b = true <-> accepts H I c pk msg sig X).
Proof. exact acceptance. Qed.
Print Assumptions C41_acceptance.

(** C42: which outcome occurs.  [hidden_of] is the index derived from h_3; OutOfFuel: fuel successive candidates were
    forbidden points. *)
Theorem C42_outcomes : forall H I c, regular I -> init_extension_field (lambda I) = Ok c -> forall fuel garb st pk sig msg,
  sig_shape I sig -> str (2 * pt_size I) pk -> 1 <= fuel ->
  match snd (verify H fuel garb st I pk sig msg) with
  | Ok _ => forall e, e < num_rounds I -> snd (p_reveal (pf_of sig e)) = hidden_of H I sig e
  | Throw x => x = EModifiedSig /\ exists e, e < num_rounds I /\ snd (p_reveal (pf_of sig e)) <> hidden_of H I sig e
  | UB _ => False
  | OutOfFuel => exists k, forall i, i < fuel -> forbidden I c (candidate H I sig (k + i)) = true
  end.
Proof. exact outcomes. Qed.
Print Assumptions C42_outcomes.
Theorem C42_throws_iff : forall H I c, regular I -> init_extension_field (lambda I) = Ok c -> forall fuel garb st pk sig msg,
  sig_shape I sig -> str (2 * pt_size I) pk -> 1 <= fuel -> snd (verify H fuel garb st I pk sig msg) <> OutOfFuel ->
  ((exists x, snd (verify H fuel garb st I pk sig msg) = Throw x) <-> exists e, e < num_rounds I /\ snd (p_reveal (pf_of sig e)) <> hidden_of H I sig e).
Proof. exact outcomes_iff. Qed.
Print Assumptions C42_throws_iff.
(** what deserialize returns never makes verification throw *)
Theorem C42_deserialized : forall H I c, regular I -> init_extension_field (lambda I) = Ok c -> forall fuel garb garb' st st' ser pk sig msg,
  st_init None (lambda I) = (st, Ok tt) -> is_bytes ser -> str (2 * pt_size I) pk -> 1 <= fuel -> deserialize H fuel garb st I ser = Ok sig ->
  sig_shape I sig /\
  ((exists b, snd (verify H fuel garb' st' I pk sig msg) = Ok b) \/
   (snd (verify H fuel garb' st' I pk sig msg) = OutOfFuel /\ exists k, forall i, i < fuel -> forbidden I c (candidate H I sig (k + i)) = true)).
Proof. exact from_bytes_outcomes. Qed.
Print Assumptions C42_deserialized.

(** C45: the strings verification hashes for h_1 and h_3 (ctx1, ctx3: the hash states before squeezing) are composed of
    output broadcasts that xor to the ciphertext in the public key and of shares that sum to the opened values. *)
Theorem C45_recombine : forall H I c, regular I -> init_extension_field (lambda I) = Ok c -> forall fuel garb st pk sig msg b,
  sig_shape I sig -> str (2 * pt_size I) pk -> 1 <= fuel -> snd (verify H fuel garb st I pk sig msg) = Ok b ->
  exists ctx1 ctx3 X, verify_contexts H I c fuel garb pk sig msg = Ok (ctx1, ctx3) /\
  h_in ctx1 = h1_input I (s_salt sig) pk msg (pf_of sig) X /\ h_in ctx3 = h3_input I (s_salt sig) (h2_of H I sig) (pf_of sig) X /\
  forall e, e < num_rounds I -> (forall p, p < num_parties I -> str (pt_size I) (x_out (X e) p)) /\
    xall (pt_size I) (map (x_out (X e)) (seq 0 (num_parties I))) = slice pk (pt_size I) (pt_size I) /\
    (forall j, j < m1 I -> xsum (map (fun p => x_S (X e) p j) (seq 0 (num_parties I))) = nth j (p_S_at_R (pf_of sig e)) 0%N /\
                          xsum (map (fun p => x_T (X e) p j) (seq 0 (num_parties I))) = nth j (p_T_at_R (pf_of sig e)) 0%N) /\
    xsum (map (x_P (X e)) (seq 0 (num_parties I))) = p_P_at_R (pf_of sig e).
Proof. exact recombine_verify. Qed.
Print Assumptions C45_recombine.

(** Cases for C39, C41, C42, C45: with a hash function whose output bytes are all 64 a signature is accepted for every
    message, a changed value of P(R) is rejected, a changed index makes verification throw. *)
Example C39_C41_C42_case : regular I1 /\ (exists c, init_extension_field (lambda I1) = Ok c) /\ exists pk sig bad thrown,
  str (2 * pt_size I1) pk /\ sig_shape I1 sig /\ sig_shape I1 bad /\ sig_shape I1 thrown /\
  forall fuel garb st, 1 <= fuel ->
  (forall msg, snd (verify (same 64) fuel garb st I1 pk sig msg) = Ok true) /\
  snd (verify (same 64) fuel garb st I1 pk bad []) = Ok false /\
  (exists x, snd (verify (same 64) fuel garb st I1 pk thrown []) = Throw x).
Proof.
  split; [exact (builtin_regular _ I1_builtin)|]. split; [exact I1_field|]. destruct I1_field as [c Hc]. destruct (case_sign 64 allowed_64) as (kp & _ & Hpk & S). destruct (S []) as (sig & SS & V).
  destruct (rejected 64 allowed_64 c (snd kp) sig [] Hc Hpk SS V) as [R1 R2]. destruct (thrown 64 allowed_64 c (snd kp) sig [] Hc Hpk SS V) as [T1 T2].
  exists (snd kp), sig, (with_first other_P sig), (with_first other_index sig). repeat (split; [assumption|]). intros fuel garb st Hf. split; [|split; auto].
  intros msg. exact (other_message 64 allowed_64 c (snd kp) sig [] Hc Hpk SS V msg fuel garb st Hf).
Qed.
(** A case for C40_unaltered_strict_partial: with output bytes 255 the last party stays closed, and its commitment can be
    changed since every input has the same digest. *)
Example C40_case : exists c pk sig sig' X X', init_extension_field (lambda I1) = Ok c /\ str (2 * pt_size I1) pk /\ sig_shape I1 sig /\ sig_shape I1 sig' /\ sig <> sig' /\
  s_h1 sig = s_h1 sig' /\ s_h3 sig = s_h3 sig' /\ is_transcript (same 255) I1 c pk sig X /\ is_transcript (same 255) I1 c pk sig' X' /\
  (forall fuel garb st, 1 <= fuel -> snd (verify (same 255) fuel garb st I1 pk sig []) = Ok true /\ snd (verify (same 255) fuel garb st I1 pk sig' []) = Ok true) /\
  (forall e, e < num_rounds I1 -> x_hidden (X e) <> 0 /\ ~ In (x_point (X e)) (get_first_n_field_elements c (2 * m2 I1))).
Proof.
  destruct I1_field as [c Hc]. destruct (case_sign 255 allowed_255) as (kp & _ & Hpk & S). destruct (S []) as (sig & SS & V).
  destruct (other_commitment 255 allowed_255 c (snd kp) sig [] Hc Hpk SS V) as (Sh & Ne & V').
  destruct (acceptance (same 255) I1 c (builtin_regular _ I1_builtin) Hc 1 (fun _ => 0%N) None (snd kp) sig [] true SS Hpk (le_n 1) (V _ _ _ (le_n 1))) as [[X TR] _].
  destruct (acceptance (same 255) I1 c (builtin_regular _ I1_builtin) Hc 1 (fun _ => 0%N) None (snd kp) _ [] true Sh Hpk (le_n 1) (V' _ _ _ (le_n 1))) as [[X' TR'] _].
  exists c, (snd kp), sig, (with_first other_C sig), X, X'. repeat (split; [assumption || reflexivity|]). split; [intros; split; auto|].
  intros e He. split; [|exact (transcript_points 255 allowed_255 c (snd kp) sig Hc X e TR He)].
  rewrite (ro_hidden _ _ _ _ _ _ _ _ _ _ _ (tr_reps _ _ _ _ _ _ TR e He)). vm_compute. discriminate.
Qed.
