(** The statements of PropVerify about acceptance, outcomes and binding (C39, C41, C42, C45). *)
From Coq Require Import Arith NArith List Bool Lia.
From Verif Require Import Prelude FieldModel FieldSpec FieldApi FieldLin PolyModel Instances HashModel TreeModel TreeSpec TreeProofs TreeApi TreeRev AesSpec AesModel AesBase AesApi AesShares BanquetModel ContainerModel ListSum BanquetHash BanquetPure BanquetPoly BanquetVerify BanquetCtx BanquetRun BanquetApi ChallengeFacts HashFacts Serialize SerialFacts ShareFacts SigSpec VerifyTree VerifyFacts VerifyOutcome FreeSpec.
Import ListNotations.

Lemma all_or_one (P : nat -> bool) m : (forall e, e < m -> P e = true) \/ exists e, e < m /\ P e = false.
Proof.
  destruct (forallb P (seq 0 m)) eqn:F.
  - left. intros e He. rewrite forallb_forall in F. apply F, in_seq. lia.
  - right. assert (G : forall l, forallb P l = false -> exists e, In e l /\ P e = false).
    { induction l as [|a l IH]; [discriminate|]. cbn [forallb]. intros G. destruct (P a) eqn:Pa; [|exists a; split; [left; reflexivity|exact Pa]].
      destruct (IH G) as (e & A & B). exists e. split; [right; exact A|exact B]. }
    destruct (G _ F) as (e & A & B). apply in_seq in A. exists e. split; [lia|exact B].
Qed.

Lemma concat_len {A} (f : nat -> list A) k m : (forall i, i < m -> length (f i) = k) -> length (concat (map f (seq 0 m))) = m * k.
Proof.
  induction m; intros Hf; [reflexivity|]. rewrite seq_S, map_app, concat_app, app_length, IHm by (intros; apply Hf; lia). cbn [plus map concat]. rewrite app_nil_r, Hf by lia. lia.
Qed.
Lemma app_inv_len {A} (a b c' d : list A) : length a = length c' -> a ++ b = c' ++ d -> a = c' /\ b = d.
Proof.
  intros L E. assert (X : firstn (length a) (a ++ b) = firstn (length a) (c' ++ d)) by (rewrite E; reflexivity). rewrite firstn_app, firstn_all, Nat.sub_diag, app_nil_r in X.
  rewrite L, firstn_app, firstn_all, Nat.sub_diag, app_nil_r in X. split; [exact X|]. subst. exact (app_inv_head _ _ _ E).
Qed.
Lemma app_inv_len_r {A} (a b c' d : list A) : length b = length d -> a ++ b = c' ++ d -> a = c' /\ b = d.
Proof. intros L E. apply app_inv_len; [|exact E]. apply (f_equal (@length A)) in E. rewrite !app_length in E. lia. Qed.


Section Accept.
Variables (H : oracle) (I : instance) (c : fctx) (nk k0 : nat).
Hypothesis OK : inst_any I c nk.
Hypothesis HP : num_parties I = 2 ^ k0.
Hypothesis Hk8 : k0 <= 8.
Let HI := io_field _ _ _ OK.
Notation n := (num_parties I).
Notation T := (num_rounds I).
Variables (sig : signature) (pk : bytes).
Hypothesis SS : sig_shape I sig.
Hypothesis Hpk : str (2 * pt_size I) pk.
Notation hidden := (fun e => N.to_nat (H (digest_size I =? 32)%nat (s_h3 sig) e mod 256 mod N.of_nat n)%N).
Notation idx := (fun e => snd (p_reveal (pf_of sig e))).

Lemma hidden_lt e : hidden e < n.
Proof. pose proof (n_pos I c nk OK). cbv beta. assert (H (digest_size I =? 32)%nat (s_h3 sig) e mod 256 mod N.of_nat n < N.of_nat n)%N by (apply N.mod_lt; lia). lia. Qed.
Lemma contexts_step fuel garb msg l : 1 <= fuel -> phase_2_expand H I c fuel (h2_of H I sig) (get_first_n_field_elements c (m2 I)) = Ok l ->
  (exists e, e < T /\ idx e <> hidden e) -> verify_contexts H I c fuel garb pk sig msg = Throw EModifiedSig.
Proof.
  intros Hf EP (e0 & He0 & Ne0). unfold verify_contexts. rewrite (read_pt I pk Hpk). cbn [bind]. rewrite (read_ct I pk Hpk). cbn [bind].
  rewrite (proofs_eq I sig SS) at 1. rewrite map_map. rewrite (phase_2_commitment_ok H I c nk OK (s_salt sig) (s_h1 sig) (fun r => p_P_delta (pf_of sig r))).
  2:{ intros r Hr. pose proof (proj1 (ps_P _ _ (pf_shape I sig SS r Hr))). lia. }
  cbn [bind]. rewrite (phase_1_eq H I c _ HI). cbn [bind]. rewrite h2_eq, EP. cbn [bind]. rewrite (hidden_pow H I sig k0 HP Hk8 fuel garb Hf). cbn [bind].
  rewrite (mapM_throw _ (fun e => match verify_setup H I (s_salt sig) (pf_of sig e) e (hidden e) with Ok r => r | _ => ([], []) end) (fun e => negb (idx e =? hidden e)) EModifiedSig).
  - replace (existsb (fun e => negb (idx e =? hidden e)) (seq 0 T)) with true; [reflexivity|]. symmetry. apply existsb_exists. exists e0. split; [apply in_seq; lia|].
    apply negb_true_iff, Nat.eqb_neq. exact Ne0.
  - intros e He. rewrite (proofs_eq I sig SS), !get_map_seq by exact He. cbn [bind]. destruct (Nat.eqb_spec (idx e) (hidden e)) as [E|E]; cbn [negb].
    + destruct (verify_setup_gen H I c nk OK (s_salt sig) (pf_of sig e) e (hidden e) (pf_shape I sig SS e He) (hidden_lt e) E) as [lf ->]. reflexivity.
    + unfold verify_setup. destruct (Nat.eqb_spec (hidden e) (snd (p_reveal (pf_of sig e)))) as [Q|_]; [exfalso; apply E; symmetry; exact Q|reflexivity].
Qed.
Lemma contexts_stuck fuel garb msg : phase_2_expand H I c fuel (h2_of H I sig) (get_first_n_field_elements c (m2 I)) = OutOfFuel -> verify_contexts H I c fuel garb pk sig msg = OutOfFuel.
Proof.
  intros EP. unfold verify_contexts. rewrite (read_pt I pk Hpk). cbn [bind]. rewrite (read_ct I pk Hpk). cbn [bind].
  rewrite (proofs_eq I sig SS) at 1. rewrite map_map. rewrite (phase_2_commitment_ok H I c nk OK (s_salt sig) (s_h1 sig) (fun r => p_P_delta (pf_of sig r))).
  2:{ intros r Hr. pose proof (proj1 (ps_P _ _ (pf_shape I sig SS r Hr))). lia. }
  cbn [bind]. rewrite (phase_1_eq H I c _ HI). cbn [bind]. rewrite h2_eq, EP. reflexivity.
Qed.
Lemma stuck_forbidden fuel : phase_2_expand H I c fuel (h2_of H I sig) (get_first_n_field_elements c (m2 I)) = OutOfFuel ->
  exists k, forall i, i < fuel -> forbidden I c (candidate H I sig (k + i)) = true.
Proof.
  intros E. destruct (phase_2_stuck H I c nk fuel _ OK E) as [k Hk]. exists k. intros i Hi. apply existsb_exists. exists (candidate H I sig (k + i)).
  split; [exact (Hk i Hi)|apply N.eqb_refl].
Qed.
Lemma trans_exists fuel l : phase_2_expand H I c fuel (h2_of H I sig) (get_first_n_field_elements c (m2 I)) = Ok l -> exists X, is_transcript H I c pk sig X.
Proof.
  intros EP. destruct (phase_2_filter H I c nk fuel _ l OK EP) as (L & M & EM).
  destruct (lagr1 I c nk OK) as [pre1 G1]. destruct (lagr2 I c nk OK) as [pre2 G2].
  assert (Q : forall e, exists x, e < T -> rep_ok H I c (s_salt sig) (s_h1 sig) (s_h3 sig) (slice pk 0 (pt_size I)) (slice pk (pt_size I) (pt_size I)) e (pf_of sig e) x /\ x_point x = nth e l 0%N).
  { intros e. destruct (le_lt_dec T e) as [A|A].
    - exists (mkRV [] 0%N 0 (fun _ => []) (fun _ => []) (fun _ => []) (fun _ => []) (fun _ => []) (fun _ => []) (fun _ => []) (fun _ _ => 0%N) (fun _ _ => 0%N) (fun _ => 0%N)). lia.
    - assert (HR : elt (lambda I) (nth e l 0%N)).
      { assert (F : Forall (elt (lambda I)) l); [|rewrite Forall_forall in F; apply F, nth_In; lia].
        rewrite EM. apply Forall_forall. intros y J. unfold accepted_of in J. apply filter_In in J. destruct J as [J _]. apply in_map_iff in J.
        destruct J as (k & <- & _). apply (api_bytes _ _ HI); [apply stream_bytes|apply stream_length]. }
      destruct (rep_exists H I c nk OK pre1 pre2 G1 G2 (s_salt sig) (s_h1 sig) _ _ e (pf_of sig e) _ (hidden e) (hidden_lt e) (pt_str I pk Hpk) (ct_str I pk Hpk) (pf_shape I sig SS e A) HR) as (x & A1 & A2 & A3).
      exists x. intros _. split; [constructor; [exact A3|exact A1]|exact A2]. }
  assert (C : forall m, exists X : nat -> rep_values, forall e, e < m -> e < T -> rep_ok H I c (s_salt sig) (s_h1 sig) (s_h3 sig) (slice pk 0 (pt_size I)) (slice pk (pt_size I) (pt_size I)) e (pf_of sig e) (X e) /\ x_point (X e) = nth e l 0%N).
  { induction m as [|m [X IH]].
    - destruct (Q 0) as [x _]. exists (fun _ => x). lia.
    - destruct (Q m) as [x Hx]. exists (fun e => if e =? m then x else X e). intros e He He'. destruct (Nat.eqb_spec e m) as [->|Ne]; [apply Hx; exact He'|apply IH; lia]. }
  destruct (C T) as [X HX]. exists X. constructor.
  - exists M. transitivity l.
    + rewrite (list_map_nth' l T 0%N L). apply map_seq_ext. intros e He. apply HX; lia.
    + exact EM.
  - intros e He. apply HX; exact He.
Qed.
(** the value of verify_body for any transcript *)
Lemma body_iff fuel garb msg X b : 1 <= fuel -> verify_body H I c fuel garb pk sig msg = Ok b -> is_transcript H I c pk sig X ->
  (b = true <-> accepts H I c pk msg sig X) /\ forall e, e < T -> idx e = x_hidden (X e).
Proof.
  intros Hf EV TR. destruct (phase_2_expand H I c fuel (h2_of H I sig) (get_first_n_field_elements c (m2 I))) as [l|x|u|] eqn:EP.
  2,3: exfalso; assert (N1 : 1 <= n) by (pose proof (n_pos I c nk OK); lia); destruct (phase_2_outcome H I N1 c HI fuel (h2_of H I sig)) as [Z|(l & Z & _)];
    [apply (points_ok I c nk OK); lia|rewrite EP in Z; discriminate Z|rewrite EP in Z; discriminate Z].
  2:{ unfold verify_body in EV. rewrite (contexts_stuck fuel garb msg EP) in EV. discriminate EV. }
  destruct (all_or_one (fun e => idx e =? hidden e) T) as [A|(e & He & A)].
  2:{ apply Nat.eqb_neq in A. unfold verify_body in EV. rewrite (contexts_step fuel garb msg l Hf EP) in EV; [discriminate EV|exists e; auto]. }
  assert (IDX : forall e, e < T -> idx e = x_hidden (X e)).
  { intros e He. rewrite (ro_hidden _ _ _ _ _ _ _ _ _ _ _ (tr_reps _ _ _ _ _ _ TR e He)). apply Nat.eqb_eq. apply A. exact He. }
  split; [|exact IDX]. destruct (lagr1 I c nk OK) as [pre1 G1]. destruct (lagr2 I c nk OK) as [pre2 G2].
  rewrite (body_X H I c nk OK sig pk SS Hpk k0 HP Hk8 X fuel garb msg l Hf TR EP IDX pre1 pre2 G1 G2) in EV. injection EV as <-.
  rewrite !andb_true_iff, !bytes_eqb_eq, forallb_forall. split.
  - intros [[E1 E3] R]. constructor; [exact E1|exact E3|]. intros e He. specialize (R e ltac:(apply in_seq; lia)). apply N.eqb_eq in R. exact R.
  - intros [E1 E3 R]. repeat split; [exact E1|exact E3|]. intros e He. apply in_seq in He. apply N.eqb_eq. apply R. lia.
Qed.
Lemma body_cases fuel garb msg : 1 <= fuel ->
  (verify_body H I c fuel garb pk sig msg = OutOfFuel /\ exists k, forall i, i < fuel -> forbidden I c (candidate H I sig (k + i)) = true) \/
  (exists X, is_transcript H I c pk sig X) /\
  ((verify_body H I c fuel garb pk sig msg = Throw EModifiedSig /\ exists e, e < T /\ idx e <> hidden e) \/
   (exists b, verify_body H I c fuel garb pk sig msg = Ok b) /\ forall e, e < T -> idx e = hidden e).
Proof.
  intros Hf. destruct (phase_2_expand H I c fuel (h2_of H I sig) (get_first_n_field_elements c (m2 I))) as [l|x|u|] eqn:EP.
  2,3: exfalso; assert (N1 : 1 <= n) by (pose proof (n_pos I c nk OK); lia); destruct (phase_2_outcome H I N1 c HI fuel (h2_of H I sig)) as [Z|(l & Z & _)];
    [apply (points_ok I c nk OK); lia|rewrite EP in Z; discriminate Z|rewrite EP in Z; discriminate Z].
  2:{ left. split; [unfold verify_body; rewrite (contexts_stuck fuel garb msg EP); reflexivity|apply stuck_forbidden; exact EP]. }
  right. destruct (trans_exists fuel l EP) as [X TR]. split; [exists X; exact TR|].
  destruct (all_or_one (fun e => idx e =? hidden e) T) as [A|(e & He & A)].
  - right. assert (A' : forall e, e < T -> idx e = hidden e) by (intros e He; apply Nat.eqb_eq, (A e He)). split; [|exact A'].
    destruct (lagr1 I c nk OK) as [pre1 G1]. destruct (lagr2 I c nk OK) as [pre2 G2]. eexists.
    refine (body_X H I c nk OK sig pk SS Hpk k0 HP Hk8 X fuel garb msg l Hf TR EP _ pre1 pre2 G1 G2).
    intros e He. rewrite (ro_hidden _ _ _ _ _ _ _ _ _ _ _ (tr_reps _ _ _ _ _ _ TR e He)). apply A'. exact He.
  - left. apply Nat.eqb_neq in A. split; [unfold verify_body; rewrite (contexts_step fuel garb msg l Hf EP); [reflexivity|exists e; auto]|exists e; auto].
Qed.
End Accept.

(** *** the statements of PropVerify *)
Section Api.
Variables (H : oracle) (I : instance) (c : fctx).
Hypothesis HB : regular I.
Hypothesis Hc : init_extension_field (lambda I) = Ok c.
Let OK := inst_with I c HB Hc.
Notation T := (num_rounds I).
Notation n := (num_parties I).
Lemma snd_verify fuel garb st pk sig msg : snd (verify H fuel garb st I pk sig msg) = verify_body H I c fuel garb pk sig msg.
Proof. unfold verify. rewrite (with_field_ok _ _ _ _ Hc). reflexivity. Qed.

Lemma acceptance fuel garb st pk sig msg b : sig_shape I sig -> str (2 * pt_size I) pk -> 1 <= fuel ->
  snd (verify H fuel garb st I pk sig msg) = Ok b ->
  (exists X, is_transcript H I c pk sig X) /\ forall X, is_transcript H I c pk sig X -> (b = true <-> accepts H I c pk msg sig X).
Proof.
  intros SS Hpk Hf. rewrite snd_verify. intros E. destruct (regular_pow2 I HB) as (k0 & HP & Hk8). split.
  - destruct (body_cases H I c _ k0 OK HP Hk8 sig pk SS Hpk fuel garb msg Hf) as [[X _]|[X _]]; [rewrite E in X; discriminate X|exact X].
  - intros X TR. apply (proj1 (body_iff H I c _ k0 OK HP Hk8 sig pk SS Hpk fuel garb msg X b Hf E TR)).
Qed.
Lemma outcomes fuel garb st pk sig msg : sig_shape I sig -> str (2 * pt_size I) pk -> 1 <= fuel ->
  match snd (verify H fuel garb st I pk sig msg) with
  | Ok _ => forall e, e < T -> snd (p_reveal (pf_of sig e)) = hidden_of H I sig e
  | Throw x => x = EModifiedSig /\ exists e, e < T /\ snd (p_reveal (pf_of sig e)) <> hidden_of H I sig e
  | UB _ => False
  | OutOfFuel => exists k, forall i, i < fuel -> forbidden I c (candidate H I sig (k + i)) = true
  end.
Proof.
  intros SS Hpk Hf. rewrite snd_verify. destruct (regular_pow2 I HB) as (k0 & HP & Hk8).
  destruct (body_cases H I c _ k0 OK HP Hk8 sig pk SS Hpk fuel garb msg Hf) as [[-> X]|[_ [[-> X]|[[b ->] X]]]]; [exact X|split; [reflexivity|exact X]|exact X].
Qed.
Lemma outcomes_iff fuel garb st pk sig msg : sig_shape I sig -> str (2 * pt_size I) pk -> 1 <= fuel ->
  snd (verify H fuel garb st I pk sig msg) <> OutOfFuel ->
  ((exists x, snd (verify H fuel garb st I pk sig msg) = Throw x) <-> exists e, e < T /\ snd (p_reveal (pf_of sig e)) <> hidden_of H I sig e).
Proof.
  intros SS Hpk Hf NF. pose proof (outcomes fuel garb st pk sig msg SS Hpk Hf) as O. destruct (snd (verify H fuel garb st I pk sig msg)) as [b|x|u|].
  - split; [intros [x X]; discriminate X|]. intros (e & He & Ne). exfalso. exact (Ne (O e He)).
  - split; [intros _; apply O|]. intros _. exists x. reflexivity.
  - destruct O.
  - congruence.
Qed.
Lemma from_bytes_outcomes fuel garb garb' st st' ser pk sig msg : st_init None (lambda I) = (st, Ok tt) -> is_bytes ser -> str (2 * pt_size I) pk -> 1 <= fuel ->
  deserialize H fuel garb st I ser = Ok sig ->
  sig_shape I sig /\
  ((exists b, snd (verify H fuel garb' st' I pk sig msg) = Ok b) \/
   (snd (verify H fuel garb' st' I pk sig msg) = OutOfFuel /\ exists k, forall i, i < fuel -> forbidden I c (candidate H I sig (k + i)) = true)).
Proof.
  intros Hst B Hpk Hf E. destruct (api_any H fuel garb I st ser HB Hst Hf B) as [A _].
  assert (Est : st = Some c). { unfold st_init in Hst. rewrite Hc in Hst. injection Hst as <-. reflexivity. }
  destruct (regular_pow2 I HB) as (k0 & HP & Hk8). pose proof (party_challenges_pow2 H I k0 fuel garb) as PC.
  destruct (deserialize_run I c Hc H fuel garb ser (map (fun e => N.to_nat (H (digest_size I =? 32)%nat (h3_of I ser) e mod 256 mod N.of_nat n)%N) (seq 0 T)) B) as (sig' & E1 & SS & EM & E3 & _).
  { apply A. exists sig. exact E. }
  { apply PC; assumption. }
  { apply length_map_seq. }
  subst st. rewrite E1 in E. injection E as ->. split; [exact SS|].
  pose proof (outcomes fuel garb' st' pk sig msg SS Hpk Hf) as O. destruct (snd (verify H fuel garb' st' I pk sig msg)) as [b|x|u|].
  - left. exists b. reflexivity.
  - exfalso. destruct O as [_ (e & He & Ne)]. apply Ne. unfold hidden_of. rewrite E3.
    assert (Q : nth e (map (fun p => snd (p_reveal p)) (s_proofs sig)) 0 = nth e (map (fun e => N.to_nat (H (digest_size I =? 32)%nat (h3_of I ser) e mod 256 mod N.of_nat n)%N) (seq 0 T)) 0) by (rewrite EM; reflexivity).
    rewrite nth_map_seq in Q by exact He. rewrite <- Q. unfold pf_of.
    symmetry. exact (map_nth (fun p => snd (p_reveal p)) (s_proofs sig) (mkProof ([], 0) [] [] [] [] 0%N [] []) e).
  - destruct O.
  - right. split; [reflexivity|exact O].
Qed.

(** what is hashed *)
Lemma absorbed fuel garb pk sig msg ctx1 ctx3 : sig_shape I sig -> str (2 * pt_size I) pk -> 1 <= fuel ->
  verify_contexts H I c fuel garb pk sig msg = Ok (ctx1, ctx3) ->
  exists X, is_transcript H I c pk sig X /\ h_in ctx1 = h1_input I (s_salt sig) pk msg (pf_of sig) X /\
    h_in ctx3 = h3_input I (s_salt sig) (h2_of H I sig) (pf_of sig) X.
Proof.
  intros SS Hpk Hf E. destruct (regular_pow2 I HB) as (k0 & HP & Hk8).
  destruct (phase_2_expand H I c fuel (h2_of H I sig) (get_first_n_field_elements c (m2 I))) as [l|x|u|] eqn:EP.
  2,3: exfalso; assert (N1 : 1 <= n) by (pose proof (n_pos I c _ OK); lia); destruct (phase_2_outcome H I N1 c Hc fuel (h2_of H I sig)) as [Z|(l & Z & _)];
    [apply (points_ok I c _ OK); lia|rewrite EP in Z; discriminate Z|rewrite EP in Z; discriminate Z].
  2:{ rewrite (contexts_stuck H I c _ k0 OK HP Hk8 sig pk SS Hpk fuel garb msg EP) in E. discriminate E. }
  destruct (trans_exists H I c _ k0 OK HP Hk8 sig pk SS Hpk fuel l EP) as [X TR].
  destruct (all_or_one (fun e => snd (p_reveal (pf_of sig e)) =? hidden_of H I sig e) T) as [A|(e & He & A)].
  2:{ apply Nat.eqb_neq in A. rewrite (contexts_step H I c _ k0 OK HP Hk8 sig pk SS Hpk fuel garb msg l Hf EP) in E; [discriminate E|exists e; auto]. }
  destruct (lagr1 I c _ OK) as [pre1 G1]. destruct (lagr2 I c _ OK) as [pre2 G2].
  destruct (contexts_X H I c _ OK sig pk SS Hpk k0 HP Hk8 X fuel garb msg l Hf TR EP ltac:(intros e He; rewrite (ro_hidden _ _ _ _ _ _ _ _ _ _ _ (tr_reps _ _ _ _ _ _ TR e He)); apply Nat.eqb_eq; exact (A e He)) pre1 pre2 G1 G2) as (k1 & k3 & p1 & p3 & EC).
  rewrite E in EC. injection EC as -> ->. exists X. auto.
Qed.
Lemma recombine fuel garb pk sig msg ctx1 ctx3 : sig_shape I sig -> str (2 * pt_size I) pk -> 1 <= fuel ->
  verify_contexts H I c fuel garb pk sig msg = Ok (ctx1, ctx3) ->
  exists X, h_in ctx1 = h1_input I (s_salt sig) pk msg (pf_of sig) X /\ h_in ctx3 = h3_input I (s_salt sig) (h2_of H I sig) (pf_of sig) X /\
  forall e, e < T -> (forall p, p < n -> str (pt_size I) (x_out (X e) p)) /\
    xall (pt_size I) (map (x_out (X e)) (seq 0 n)) = slice pk (pt_size I) (pt_size I) /\
    (forall j, j < m1 I -> xsum (map (fun p => x_S (X e) p j) (seq 0 n)) = nth j (p_S_at_R (pf_of sig e)) 0%N /\
                          xsum (map (fun p => x_T (X e) p j) (seq 0 n)) = nth j (p_T_at_R (pf_of sig e)) 0%N) /\
    xsum (map (x_P (X e)) (seq 0 n)) = p_P_at_R (pf_of sig e).
Proof.
  intros SS Hpk Hf E. destruct (absorbed fuel garb pk sig msg ctx1 ctx3 SS Hpk Hf E) as (X & TR & E1 & E3). exists X. repeat split; try assumption;
  pose proof (tr_reps _ _ _ _ _ _ TR e H0) as RO.
  - apply (ro_sizes _ _ _ _ _ _ _ _ _ _ _ RO p). assumption.
  - apply (ro_sizes _ _ _ _ _ _ _ _ _ _ _ RO p). assumption.
  - apply (ro_cipher _ _ _ _ _ _ _ _ _ _ _ RO).
  - apply (ro_sum_S _ _ _ _ _ _ _ _ _ _ _ RO). assumption.
  - apply (ro_sum_T _ _ _ _ _ _ _ _ _ _ _ RO). assumption.
  - apply (ro_sum_P _ _ _ _ _ _ _ _ _ _ _ RO).
Qed.

(** *** binding *)
Lemma com_len pk sig X e p : sig_shape I sig -> is_transcript H I c pk sig X -> e < T -> p < n -> length (x_com (X e) p) = digest_size I.
Proof.
  intros SS TR He Hp. rewrite (ro_com _ _ _ _ _ _ _ _ _ _ _ (tr_reps _ _ _ _ _ _ TR e He) p Hp). destruct (_ =? _); [apply (ps_C _ _ (pf_shape I sig SS e He))|apply stream_length].
Qed.
Lemma out_len pk sig X e p : is_transcript H I c pk sig X -> e < T -> p < n -> length (x_out (X e) p) = pt_size I.
Proof. intros TR He Hp. apply (ro_sizes _ _ _ _ _ _ _ _ _ _ _ (tr_reps _ _ _ _ _ _ TR e He) p Hp). Qed.
Definition rest1 (pf : nat -> rep_proof) (X : nat -> rep_values) : bytes :=
  concat (map (fun e => concat (map (fun p => x_com (X e) p ++ x_out (X e) p) (seq 0 n)) ++ p_sk_delta (pf e) ++ p_t_delta (pf e)) (seq 0 T)).
Lemma row1_len pk sig X e : sig_shape I sig -> is_transcript H I c pk sig X -> e < T ->
  length (concat (map (fun p => x_com (X e) p ++ x_out (X e) p) (seq 0 n)) ++ p_sk_delta (pf_of sig e) ++ p_t_delta (pf_of sig e)) = n * (digest_size I + pt_size I) + (key_size (i_aes I) + num_sboxes (i_aes I)).
Proof.
  intros SS TR He. rewrite !app_length. rewrite (concat_len _ (digest_size I + pt_size I)).
  - pose proof (pf_shape I sig SS e He) as P. rewrite (proj1 (ps_sk _ _ P)), (proj1 (ps_t _ _ P)). reflexivity.
  - intros p Hp. rewrite app_length, (com_len pk sig X e p SS TR He Hp), (out_len pk sig X e p TR He Hp). reflexivity.
Qed.
Lemma rest1_len pk sig X : sig_shape I sig -> is_transcript H I c pk sig X -> length (rest1 (pf_of sig) X) = T * (n * (digest_size I + pt_size I) + (key_size (i_aes I) + num_sboxes (i_aes I))).
Proof. intros SS TR. apply concat_len. intros e He. apply (row1_len pk sig X e SS TR He). Qed.

Lemma binding fuel fuel' garb garb' st st' pk msg pk' msg' sig : sig_shape I sig -> str (2 * pt_size I) pk -> str (2 * pt_size I) pk' -> 1 <= fuel -> 1 <= fuel' ->
  snd (verify H fuel garb st I pk sig msg) = Ok true -> snd (verify H fuel' garb' st' I pk' sig msg') = Ok true -> (pk, msg) <> (pk', msg') ->
  (exists X, is_transcript H I c pk sig X) /\ (exists X, is_transcript H I c pk' sig X) /\
  forall X X', is_transcript H I c pk sig X -> is_transcript H I c pk' sig X' ->
  collides (digest H I) (h1_input I (s_salt sig) pk msg (pf_of sig) X) (h1_input I (s_salt sig) pk' msg' (pf_of sig) X').
Proof.
  intros SS Hpk Hpk' Hf Hf' E E' Ne. destruct (acceptance fuel garb st pk sig msg true SS Hpk Hf E) as [A B]. destruct (acceptance fuel' garb' st' pk' sig msg' true SS Hpk' Hf' E') as [A' B'].
  split; [exact A|]. split; [exact A'|]. intros X X' TR TR'. split.
  - intros Q. apply Ne. unfold h1_input in Q. fold (rest1 (pf_of sig) X) in Q. fold (rest1 (pf_of sig) X') in Q. apply app_inv_head in Q. apply app_inv_head in Q.
    apply app_inv_len in Q; [|rewrite (proj1 Hpk), (proj1 Hpk'); reflexivity]. destruct Q as [-> Q]. apply app_inv_len_r in Q; [destruct Q as [-> _]; reflexivity|].
    rewrite (rest1_len _ sig X SS TR), (rest1_len pk' sig X' SS TR'). reflexivity.
  - rewrite (ac_h1 _ _ _ _ _ _ _ (proj1 (B X TR) eq_refl)), (ac_h1 _ _ _ _ _ _ _ (proj1 (B' X' TR') eq_refl)). reflexivity.
Qed.
End Api.
