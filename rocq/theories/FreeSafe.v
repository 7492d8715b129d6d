(** Verification with freely chosen parameters, whatever the signature (C58). *)
From Coq Require Import Arith NArith List Bool Lia.
From Verif Require Import Prelude FieldModel FieldSpec FieldApi FieldLin PolyModel Instances HashModel TreeModel TreeSpec TreeProofs TreeApi TreeRev AesSpec AesModel AesBase AesApi AesShares BanquetModel ContainerModel ListSum BanquetHash BanquetPure BanquetPoly BanquetVerify BanquetCtx BanquetRun BanquetApi ChallengeFacts HashFacts Serialize SerialFacts ShareFacts SigSpec AnySpec VerifyTree VerifyFacts VerifyOutcome AcceptFacts FreeSpec FreeApi.
Import ListNotations.

Section Safe.
Variables (H : oracle) (I : instance) (c : fctx) (nk : nat).
Hypothesis OK : inst_any I c nk.
Let HI := io_field _ _ _ OK.
Notation n := (num_parties I).
Notation T := (num_rounds I).
Variables (sig : signature) (pk : bytes).
Hypothesis SS : sig_shape I sig.
Hypothesis Hpk : str (2 * pt_size I) pk.
Notation idx := (fun e => snd (p_reveal (pf_of sig e))).
Notation coefs := (fun e => map (fun j => from_bytes (stream H (digest_size I =? 32) (s_h1 sig) ((e * m1 I + j) * lambda I) (lambda I))) (seq 0 (m1 I))).

(** up to the opened parties *)
Lemma contexts_head fuel garb msg l : phase_2_expand H I c fuel (h2_of H I sig) (get_first_n_field_elements c (m2 I)) = Ok l ->
  phase_3_expand H I fuel garb (s_h3 sig) = OutOfFuel -> verify_contexts H I c fuel garb pk sig msg = OutOfFuel.
Proof.
  intros EP E3. unfold verify_contexts. rewrite (read_pt I pk Hpk). cbn [bind]. rewrite (read_ct I pk Hpk). cbn [bind].
  rewrite (proofs_eq I sig SS) at 1. rewrite map_map. rewrite (phase_2_commitment_ok H I c nk OK (s_salt sig) (s_h1 sig) (fun r => p_P_delta (pf_of sig r))).
  2:{ intros r Hr. pose proof (proj1 (ps_P _ _ (pf_shape I sig SS r Hr))). lia. }
  cbn [bind]. rewrite (phase_1_eq H I c _ HI). cbn [bind]. rewrite h2_eq, EP. cbn [bind]. rewrite E3. reflexivity.
Qed.
Lemma contexts_points fuel garb msg : phase_2_expand H I c fuel (h2_of H I sig) (get_first_n_field_elements c (m2 I)) = OutOfFuel -> verify_contexts H I c fuel garb pk sig msg = OutOfFuel.
Proof.
  intros EP. unfold verify_contexts. rewrite (read_pt I pk Hpk). cbn [bind]. rewrite (read_ct I pk Hpk). cbn [bind].
  rewrite (proofs_eq I sig SS) at 1. rewrite map_map. rewrite (phase_2_commitment_ok H I c nk OK (s_salt sig) (s_h1 sig) (fun r => p_P_delta (pf_of sig r))).
  2:{ intros r Hr. pose proof (proj1 (ps_P _ _ (pf_shape I sig SS r Hr))). lia. }
  cbn [bind]. rewrite (phase_1_eq H I c _ HI). cbn [bind]. rewrite h2_eq, EP. reflexivity.
Qed.
Lemma points_stuck fuel : phase_2_expand H I c fuel (h2_of H I sig) (get_first_n_field_elements c (m2 I)) = OutOfFuel ->
  exists k, forall i, i < fuel -> forbidden I c (candidate H I sig (k + i)) = true.
Proof.
  intros E. destruct (phase_2_stuck H I c nk fuel _ OK E) as [k Hk]. exists k. intros i Hi. apply existsb_exists. exists (candidate H I sig (k + i)).
  split; [exact (Hk i Hi)|apply N.eqb_refl].
Qed.
Lemma contexts_modified fuel garb msg l ms : phase_2_expand H I c fuel (h2_of H I sig) (get_first_n_field_elements c (m2 I)) = Ok l ->
  phase_3_expand H I fuel garb (s_h3 sig) = Ok ms -> length ms = T -> Forall (fun p => p < n) ms ->
  (exists e, e < T /\ idx e <> nth e ms 0) -> verify_contexts H I c fuel garb pk sig msg = Throw EModifiedSig.
Proof.
  intros EP E3 LM FM (e0 & He0 & Ne0). assert (Hm : forall e, e < T -> nth e ms 0 < n) by (intros e He; rewrite Forall_forall in FM; apply FM, nth_In; lia).
  unfold verify_contexts. rewrite (read_pt I pk Hpk). cbn [bind]. rewrite (read_ct I pk Hpk). cbn [bind].
  rewrite (proofs_eq I sig SS) at 1. rewrite map_map. rewrite (phase_2_commitment_ok H I c nk OK (s_salt sig) (s_h1 sig) (fun r => p_P_delta (pf_of sig r))).
  2:{ intros r Hr. pose proof (proj1 (ps_P _ _ (pf_shape I sig SS r Hr))). lia. }
  cbn [bind]. rewrite (phase_1_eq H I c _ HI). cbn [bind]. rewrite h2_eq, EP. cbn [bind]. rewrite E3. cbn [bind].
  rewrite (mapM_throw _ (fun e => match verify_setup H I (s_salt sig) (pf_of sig e) e (nth e ms 0) with Ok r => r | _ => ([], []) end) (fun e => negb (idx e =? nth e ms 0)) EModifiedSig).
  - replace (existsb (fun e => negb (idx e =? nth e ms 0)) (seq 0 T)) with true; [reflexivity|]. symmetry. apply existsb_exists. exists e0. split; [apply in_seq; lia|].
    apply negb_true_iff, Nat.eqb_neq. exact Ne0.
  - intros e He. rewrite (proofs_eq I sig SS), !get_map_seq by exact He. cbn [bind]. rewrite (get_ok ms e 0) by lia. cbn [bind].
    destruct (Nat.eqb_spec (idx e) (nth e ms 0)) as [E|E]; cbn [negb].
    + destruct (verify_setup_gen H I c nk OK (s_salt sig) (pf_of sig e) e (nth e ms 0) (pf_shape I sig SS e He) (Hm e He) E) as [lf ->]. reflexivity.
    + unfold verify_setup. destruct (Nat.eqb_spec (nth e ms 0) (snd (p_reveal (pf_of sig e)))) as [Q|_]; [exfalso; apply E; symmetry; exact Q|reflexivity].
Qed.
End Safe.

Lemma trans_any H I c nk sig pk fuel garb l ms : inst_any I c nk -> sig_shape I sig -> str (2 * pt_size I) pk ->
  phase_2_expand H I c fuel (h2_of H I sig) (get_first_n_field_elements c (m2 I)) = Ok l -> phase_3_expand H I fuel garb (s_h3 sig) = Ok ms ->
  exists X, is_transcript_any H I c pk sig X.
Proof.
  intros OK SS Hpk EP E3. assert (N1 : 1 <= num_parties I) by (pose proof (n_pos I c nk OK); lia). pose proof (io_field _ _ _ OK) as HI.
  destruct (phase_2_filter H I c nk fuel _ l OK EP) as (L & M & EM). destruct (phase_3_filter H I fuel garb _ ms N1 (io_N _ _ _ OK) E3) as (L3 & M3 & EM3).
  destruct (lagr1 I c nk OK) as [pre1 G1]. destruct (lagr2 I c nk OK) as [pre2 G2].
  set (good := fun e x => rep_open H I c (s_salt sig) (s_h1 sig) (slice pk 0 (pt_size I)) (slice pk (pt_size I) (pt_size I)) e (pf_of sig e) x /\ x_point x = nth e l 0%N /\ x_hidden x = nth e ms 0).
  assert (Q : forall e, exists x, e < num_rounds I -> good e x).
  { intros e. destruct (le_lt_dec (num_rounds I) e) as [A|A].
    - exists (mkRV [] 0%N 0 (fun _ => []) (fun _ => []) (fun _ => []) (fun _ => []) (fun _ => []) (fun _ => []) (fun _ => []) (fun _ _ => 0%N) (fun _ _ => 0%N) (fun _ => 0%N)). lia.
    - assert (HR : elt (lambda I) (nth e l 0%N)).
      { assert (F : Forall (elt (lambda I)) l); [|rewrite Forall_forall in F; apply F, nth_In; lia].
        rewrite EM. apply Forall_forall. intros y J. unfold accepted_of in J. apply filter_In in J. destruct J as [J _]. apply in_map_iff in J.
        destruct J as (k & <- & _). apply (api_bytes _ _ HI); [apply stream_bytes|apply stream_length]. }
      assert (Hm : nth e ms 0 < num_parties I).
      { assert (J : In (nth e ms 0) ms) by (apply nth_In; lia). rewrite EM3 in J at 2. unfold accepted_of in J. apply filter_In in J. apply Nat.ltb_lt. apply J. }
      destruct (rep_exists H I c nk OK pre1 pre2 G1 G2 (s_salt sig) (s_h1 sig) _ _ e (pf_of sig e) _ _ Hm (pt_str I pk Hpk) (ct_str I pk Hpk) (pf_shape I sig SS e A) HR) as (x & A1).
      exists x. intros _. exact A1. }
  assert (C : forall m, exists X : nat -> rep_values, forall e, e < m -> e < num_rounds I -> good e (X e)).
  { induction m as [|m [X IH]].
    - destruct (Q 0) as [x _]. exists (fun _ => x). lia.
    - destruct (Q m) as [x Hx]. exists (fun e => if e =? m then x else X e). intros e He He'. destruct (Nat.eqb_spec e m) as [->|Ne]; [apply Hx; exact He'|apply IH; lia]. }
  destruct (C (num_rounds I)) as [X HX]. exists X. constructor.
  - exists M. transitivity l.
    + rewrite (list_map_nth' l (num_rounds I) 0%N L). apply map_seq_ext. intros e He. apply HX; lia.
    + exact EM.
  - replace (map (fun e => x_hidden (X e)) (seq 0 (num_rounds I))) with ms; [split; [exact L3|exists M3; exact EM3]|].
    rewrite (list_map_nth' ms (num_rounds I) 0 L3). apply map_seq_ext. intros e He. symmetry. apply HX; lia.
  - intros e He. apply HX; exact He.
Qed.

Lemma free_any H I c fuel garb st pk sig msg : proper I -> init_extension_field (lambda I) = Ok c -> sig_shape I sig -> str (2 * pt_size I) pk ->
  match snd (verify H fuel garb st I pk sig msg) with
  | Ok b => drawn_parties H I (s_h3 sig) (map (fun e => snd (p_reveal (pf_of sig e))) (seq 0 (num_rounds I))) /\
            (exists X, is_transcript_any H I c pk sig X) /\ forall X, is_transcript_any H I c pk sig X -> (b = true <-> accepts H I c pk msg sig X)
  | Throw x => x = EModifiedSig /\ exists ms, drawn_parties H I (s_h3 sig) ms /\ map (fun e => snd (p_reveal (pf_of sig e))) (seq 0 (num_rounds I)) <> ms
  | UB _ => False
  | OutOfFuel => (exists k, forall i, i < fuel -> forbidden I c (candidate H I sig (k + i)) = true) \/
                 (exists k, forall i, i < fuel -> num_parties I <= party_candidate H I (s_h3 sig) (k + i))
  end.
Proof.
  intros P Hc SS Hpk. destruct (proper_any I P) as [c' OK].
  assert (c' = c) by (pose proof (io_field _ _ _ OK) as X; rewrite Hc in X; injection X as <-; reflexivity). subst c'.
  destruct (pr_parties _ P) as [H2 HN]. assert (N1 : 1 <= num_parties I) by lia.
  unfold verify. rewrite (with_field_ok _ _ _ _ Hc). cbn [snd].
  destruct (phase_2_expand H I c fuel (h2_of H I sig) (get_first_n_field_elements c (m2 I))) as [l|x|u|] eqn:EP.
  2,3: exfalso; destruct (phase_2_outcome H I N1 c Hc fuel (h2_of H I sig)) as [Z|(l & Z & _)];
    [apply (points_ok I c _ OK); lia|rewrite EP in Z; discriminate Z|rewrite EP in Z; discriminate Z].
  2:{ unfold verify_body. rewrite (contexts_points H I c _ OK sig pk SS Hpk fuel garb msg EP). cbn [bind]. left. exact (points_stuck H I c _ OK sig fuel EP). }
  destruct (phase_3_outcome H I N1 fuel garb (s_h3 sig)) as [E3|(ms & E3 & LM & FM & _)].
  - unfold verify_body. rewrite (contexts_head H I c _ OK sig pk SS Hpk fuel garb msg l EP E3). cbn [bind]. right. exact (phase_3_stuck H I fuel garb _ N1 HN E3).
  - destruct (phase_3_filter H I fuel garb _ ms N1 HN E3) as (_ & M & EM). assert (DR : drawn_parties H I (s_h3 sig) ms) by (split; [exact LM|exists M; exact EM]).
    destruct (all_or_one (fun e => snd (p_reveal (pf_of sig e)) =? nth e ms 0) (num_rounds I)) as [A|(e & He & A)].
    + assert (EI : map (fun e => snd (p_reveal (pf_of sig e))) (seq 0 (num_rounds I)) = ms).
      { rewrite (list_map_nth' ms (num_rounds I) 0 LM). apply map_ext_in. intros e He. apply in_seq in He. apply Nat.eqb_eq. apply A. lia. }
      destruct (lagr1 I c _ OK) as [pre1 G1]. destruct (lagr2 I c _ OK) as [pre2 G2].
      assert (B : forall X, is_transcript_any H I c pk sig X -> forall e, e < num_rounds I -> snd (p_reveal (pf_of sig e)) = x_hidden (X e)).
      { intros X TR e He. rewrite (proj1 (Nat.eqb_eq _ _) (A e He)), (ms_eq H I c _ OK sig pk X fuel garb ms E3 TR). rewrite (nth_map_seq (fun e => x_hidden (X e)) (num_rounds I) e 0 He). reflexivity. }
      destruct (trans_any H I c _ sig pk fuel garb l ms OK SS Hpk EP E3) as [X0 TR0].
      pose proof (fun X TR => body_any H I c _ OK sig pk SS Hpk X fuel garb msg l ms E3 TR EP (B X TR) pre1 pre2 G1 G2) as V.
      pose proof (V X0 TR0) as V0. rewrite V0. rewrite EI. split; [exact DR|]. split; [exists X0; exact TR0|]. intros X TR. specialize (V X TR). rewrite V0 in V. injection V as ->.
      rewrite !andb_true_iff, !bytes_eqb_eq, forallb_forall. split.
      * intros [[E1 E4] R]. constructor; [exact E1|exact E4|]. intros e He. specialize (R e ltac:(apply in_seq; lia)). apply N.eqb_eq in R. exact R.
      * intros [E1 E4 R]. repeat split; [exact E1|exact E4|]. intros e He. apply in_seq in He. apply N.eqb_eq. apply R. lia.
    + apply Nat.eqb_neq in A. unfold verify_body. rewrite (contexts_modified H I c _ OK sig pk SS Hpk fuel garb msg l ms EP E3 LM FM); [|exists e; auto]. cbn [bind].
      split; [reflexivity|]. exists ms. split; [exact DR|]. intros Z. apply A. rewrite <- Z. rewrite (nth_indep _ 0 (snd (p_reveal (pf_of sig 0)))) by (rewrite map_length, seq_length; exact He).
      rewrite (map_nth (fun e => snd (p_reveal (pf_of sig e)))), seq_nth by exact He. reflexivity.
Qed.
