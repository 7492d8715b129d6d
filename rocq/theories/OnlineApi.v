(** The theorems of PropOnline in the form they are stated there. *)
From Coq Require Import Arith NArith List Bool Lia.
From Verif Require Import Prelude FieldModel FieldSpec FieldApi FieldLin PolyModel PolyProofs FieldSig Gf8 Instances HashModel TreeModel TreeSpec TreeProofs TreeApi TreeRev AesSpec AesModel AesBase AesApi AesShares BanquetModel ContainerModel ListSum BanquetHash BanquetPure BanquetPoly BanquetSign BanquetVerify BanquetCtx BanquetRun BanquetApi SignFacts ChallengeFacts TapeFacts HashFacts Serialize SerialFacts ShareFacts Forge SigSpec VerifyTree VerifyFacts VerifyOutcome AcceptFacts AlterFacts ExtractSpec ExtractPoly ExtractFacts ExtractApi FreeSpec OnlineSpec OnlineFacts HonestSpec HonestFacts HonestOpen SoundSpec.
Import ListNotations.

Section Api.
Variables (H : oracle) (I : instance) (c : fctx).
Hypothesis HB : regular I.
Hypothesis Hc : init_extension_field (lambda I) = Ok c.
Notation n := (num_parties I).
Notation T := (num_rounds I).
Let OK := inst_with I c HB Hc.
Let MM := regular_mm I HB.

Lemma online_exists fuel garb st pk msg sig X seed e : sig_shape I sig -> str (2 * pt_size I) pk -> 1 <= fuel ->
  snd (verify H fuel garb st I pk sig msg) = Ok true -> is_transcript H I c pk sig X -> e < T ->
  exists y, evaluation H I c (s_salt sig) (slice pk 0 (pt_size I)) e (pf_of sig e) (x_coef (X e)) (x_point (X e)) (seed e) y.
Proof.
  intros SS Hpk Hf V TR He. destruct (regular_pow2 I HB) as (k0 & HP & Hk8).
  apply (eval_exists H I c _ OK); [apply (pt_str I pk Hpk)|apply (pf_shape I sig SS e He)|apply (coef_len H I c sig pk X TR e He)|apply (coef_el H I c _ OK sig pk X TR e He)|apply (point_el H I c _ k0 OK HP Hk8 sig pk X TR e He)].
Qed.
Notation leaf X e p := (x_node (X e) (first_leaf n + p)).
Notation committed sig X seed := (forall e p, e < T -> p < n -> digest H I (com_input (s_salt sig) e p (seed e p)) = x_com (X e) p).
Lemma hidden_eq pk sig X e : is_transcript H I c pk sig X -> e < T -> x_hidden (X e) = hidden_of H I sig e.
Proof. intros TR He. apply (ro_hidden _ _ _ _ _ _ _ _ _ _ _ (tr_reps _ _ _ _ _ _ TR e He)). Qed.
Lemma hidden_lt sig e : hidden_of H I sig e < n.
Proof. unfold hidden_of. pose proof (n_pos I c _ OK). pose proof (N.mod_lt (H (digest_size I =? 32) (s_h3 sig) e mod 256) (N.of_nat n) ltac:(lia)). lia. Qed.

Lemma same_seeds pk sig X seed : is_transcript H I c pk sig X -> committed sig X seed ->
  (exists e p, e < T /\ p < n /\ p <> hidden_of H I sig e /\
     collides (digest H I) (com_input (s_salt sig) e p (seed e p)) (com_input (s_salt sig) e p (leaf X e p))) \/
  forall e p, e < T -> p < n -> p <> hidden_of H I sig e -> leaf X e p = seed e p.
Proof.
  intros TR CM. set (D := list_eq_dec N.eq_dec). set (f e p := (p =? hidden_of H I sig e) || (if D (leaf X e p) (seed e p) then true else false)).
  destruct (all_or_one (fun e => forallb (f e) (seq 0 n)) T) as [A|(e & He & A)].
  - right. intros e p He Hp Np. specialize (A e He). rewrite forallb_forall in A. specialize (A p ltac:(apply in_seq; lia)). unfold f in A. apply Nat.eqb_neq in Np. rewrite Np in A. cbn [orb] in A.
    destruct (D (leaf X e p) (seed e p)) as [Q|_]; [exact Q|discriminate A].
  - left. destruct (all_or_one (f e) n) as [B|(p & Hp & B)].
    + exfalso. assert (Z : forallb (f e) (seq 0 n) = true) by (apply forallb_forall; intros p Hp; apply in_seq in Hp; apply B; lia). rewrite A in Z. discriminate Z.
    + unfold f in B. apply orb_false_iff in B. destruct B as [B1 B2]. apply Nat.eqb_neq in B1. destruct (D (leaf X e p) (seed e p)) as [_|Q]; [discriminate B2|].
      exists e, p. split; [exact He|]. split; [exact Hp|]. split; [exact B1|]. split.
      * unfold com_input. intros Z. apply Q. apply app_inv_head in Z. apply app_inv_head in Z. apply app_inv_head in Z. symmetry. exact Z.
      * rewrite CM by assumption. rewrite (ro_com _ _ _ _ _ _ _ _ _ _ _ (tr_reps _ _ _ _ _ _ TR e He) p Hp). rewrite (hidden_eq pk sig X e TR He). destruct (Nat.eqb_spec p (hidden_of H I sig e)); [contradiction|reflexivity].
Qed.

Lemma online fuel garb st pk msg sig : sig_shape I sig -> str (2 * pt_size I) pk -> 1 <= fuel ->
  snd (verify H fuel garb st I pk sig msg) = Ok true ->
  (exists X, is_transcript H I c pk sig X) /\ forall X seed Y, is_transcript H I c pk sig X -> committed sig X seed ->
  (forall e, e < T -> evaluation H I c (s_salt sig) (slice pk 0 (pt_size I)) e (pf_of sig e) (x_coef (X e)) (x_point (X e)) (seed e) (Y e)) ->
  (exists e p, e < T /\ p < n /\ p <> hidden_of H I sig e /\
     collides (digest H I) (com_input (s_salt sig) e p (seed e p)) (com_input (s_salt sig) e p (leaf X e p))) \/
  forall e, e < T -> (forall p, p < n -> deviates I (X e) (Y e) p -> p = hidden_of H I sig e) /\
    (deviates I (X e) (Y e) (hidden_of H I sig e) \/
     secret_key_for I pk (all_key I (Y e)) \/
     bad_coefs I c (x_coef (X e)) (all_in I (Y e)) (all_inv I (Y e)) \/
     bad_point I c (x_coef (X e)) (all_in I (Y e)) (all_inv I (Y e)) (all_tape I (Y e)) (fun k => nth k (p_P_delta (pf_of sig e)) 0%N) (x_point (X e))).
Proof.
  intros SS Hpk Hf V. destruct (acceptance H I c HB Hc fuel garb st pk sig msg true SS Hpk Hf V) as [AX AC]. split; [exact AX|]. intros X seed Y TR CM EV.
  destruct (regular_pow2 I HB) as (k0 & HP & Hk8). pose proof (proj1 (AC X TR) eq_refl) as A.
  destruct (same_seeds pk sig X seed TR CM) as [Q|Q]; [left; exact Q|right]. intros e He. pose proof (hidden_eq pk sig X e TR He) as EH.
  assert (OP : forall p, p < n -> p <> hidden_of H I sig e -> ~ deviates I (X e) (Y e) p).
  { intros p Hp Np. apply (opened_same H I c _ k0 OK HP Hk8 sig pk X Hpk SS TR e (seed e) (Y e) He (EV e He) p Hp); [rewrite EH; exact Np|apply Q; assumption]. }
  split.
  - intros p Hp D. destruct (Nat.eq_dec p (hidden_of H I sig e)) as [Z|Z]; [exact Z|]. destruct (OP p Hp Z D).
  - destruct (deviates_dec I X e (Y e) (hidden_of H I sig e)) as [D|D]; [left; exact D|right].
    apply (all_same H I c _ k0 OK HP Hk8 MM sig pk msg X Hpk SS TR A e (seed e) (Y e) He (EV e He)).
    intros p Hp. destruct (Nat.eq_dec p (hidden_of H I sig e)) as [->|Z]; [exact D|apply OP; assumption].
Qed.

(** the challenges of an accepted signature, as those of a prover of C78 *)
Lemma online_passes fuel garb st pk msg sig X seed Y g : sig_shape I sig -> str (2 * pt_size I) pk -> 1 <= fuel ->
  snd (verify H fuel garb st I pk sig msg) = Ok true -> is_transcript H I c pk sig X -> committed sig X seed ->
  (forall e, e < T -> evaluation H I c (s_salt sig) (slice pk 0 (pt_size I)) e (pf_of sig e) (x_coef (X e)) (x_point (X e)) (seed e) (Y e)) ->
  let rss := map (fun e => x_coef (X e)) (seq 0 T) in let Rs := map (fun e => x_point (X e)) (seq 0 T) in let ps := map (hidden_of H I sig) (seq 0 T) in
  let W := mkProver (fun e => all_in I (Y e)) (fun e => all_inv I (Y e)) (fun e => all_tape I (Y e)) (fun _ e k => nth k (p_P_delta (pf_of sig e)) 0%N) g in
  (forall e p, e < T -> p < n -> deviates I (X e) (Y e) p -> g rss Rs e = p) ->
  ~ (exists e p, e < T /\ p < n /\ p <> hidden_of H I sig e /\
     collides (digest H I) (com_input (s_salt sig) e p (seed e p)) (com_input (s_salt sig) e p (leaf X e p))) ->
  (forall e, e < T -> ~ secret_key_for I pk (all_key I (Y e))) ->
  coef_challenge I rss /\ point_challenge I c Rs /\ party_challenge I ps /\ forall e, e < T -> passes I c W rss Rs ps e.
Proof.
  intros SS Hpk Hf V TR CM EV rss Rs ps W HG NC NK. destruct (regular_pow2 I HB) as (k0 & HP & Hk8). destruct (online fuel garb st pk msg sig SS Hpk Hf V) as [_ Q].
  destruct (Q X seed Y TR CM EV) as [Z|Z]; [contradiction|]. split; [|split; [|split]].
  - split; [apply length_map_seq|]. apply Forall_map, Forall_forall. intros e He. apply in_seq in He. split; [apply (coef_len H I c sig pk X TR e); lia|apply (coef_el H I c _ OK sig pk X TR e); lia].
  - split; [apply length_map_seq|]. apply Forall_forall. intros R HR. destruct (tr_points _ _ _ _ _ _ TR) as [M EM]. unfold Rs in HR. split.
    + apply in_map_iff in HR. destruct HR as (e & <- & He). apply in_seq in He. apply (point_el H I c _ k0 OK HP Hk8 sig pk X TR e). lia.
    + rewrite EM in HR. apply filter_In in HR. destruct HR as [_ F]. intros Bad. apply negb_true_iff in F. unfold forbidden in F.
      assert (existsb (N.eqb R) (get_first_n_field_elements c (m2 I)) = true) as Z' by (apply existsb_exists; exists R; split; [exact Bad|apply N.eqb_refl]). rewrite F in Z'. discriminate Z'.
  - split; [apply length_map_seq|]. apply Forall_map, Forall_forall. intros e _. apply hidden_lt.
  - intros e He. destruct (Z e He) as [_ [D|[D|[D|D]]]].
    + right. right. unfold ps, W. cbn [pv_guess]. rewrite nth_map_seq by exact He. symmetry. apply HG; [exact He|apply hidden_lt|exact D].
    + destruct (NK e He D).
    + left. unfold rss. rewrite nth_map_seq by exact He. exact D.
    + right. left. unfold rss, Rs. rewrite !nth_map_seq by exact He. exact D.
Qed.

(** honest signatures *)
Lemma honest_sig key pt ct s t msg sig X : str (key_size (i_aes I)) key -> str (pt_size I) pt -> aes_with_sbox_output (key_size (i_aes I)) key pt = Ok ((s, t), Some ct) ->
  prescribed H I c key pt ct s t msg sig X ->
  sig_shape I sig /\ is_transcript H I c (pt ++ ct) sig X /\ accepts H I c (pt ++ ct) msg sig X /\
  forall e, e < T -> (forall p, p < n -> digest H I (com_input (s_salt sig) e p (leaf X e p)) = x_com (X e) p) /\
    evaluation H I c (s_salt sig) pt e (pf_of sig e) (x_coef (X e)) (x_point (X e)) (fun p => leaf X e p) (X e) /\
    (forall p, ~ deviates I (X e) (X e) p) /\ all_key I (X e) = key /\ all_in I (X e) = s /\ all_inv I (X e) = t.
Proof.
  intros Hk Hp EA PR. destruct (regular_pow2 I HB) as (k0 & HP & Hk8). pose proof (key_ok_of I c _ OK key pt ct s t Hk Hp EA) as KO.
  assert (EC : aes_n (nk_of I) key pt = Some ct) by (rewrite (aes_same _ _ _ (inst_aes_in I c _ key pt OK Hk Hp)), (ko_run _ _ _ _ _ _ _ KO); reflexivity). pose proof (proj1 (BanquetRun.ct_str I c _ OK key pt ct s t KO)) as Lct.
  assert (SS : sig_shape I sig).
  { destruct (api_returned H I c key pt ct ct s t msg HB Hc Hk Hp Lct EA sig X PR) as (f0 & R0). specialize (R0 f0 (fun _ => 0%N) None (le_n _)).
    destruct (sign H f0 (fun _ => 0%N) None I (key, pt ++ ct) msg) as [st' r] eqn:ES. cbn [snd] in R0. subst r.
    exact (proj1 (proj2 (sign_shape H I c _ OK key pt ct Hk Hp EC f0 _ None msg sig st' ES))). }
  assert (S1 : slice (pt ++ ct) 0 (pt_size I) = pt) by (unfold slice; rewrite skipn_O, firstn_app, (proj1 Hp), Nat.sub_diag, firstn_O, app_nil_r; apply firstn_all2; rewrite (proj1 Hp); apply le_n).
  assert (S2 : slice (pt ++ ct) (pt_size I) (pt_size I) = ct) by (unfold slice; rewrite skipn_app, (proj1 Hp), Nat.sub_diag, skipn_O, (skipn_all2 pt) by (rewrite (proj1 Hp); apply le_n); apply firstn_all2; rewrite Lct; apply le_n).
  assert (PE : forall e, e < T -> elt (lambda I) (x_point (X e))) by (intros e He; apply (pr_point_E H I c _ k0 OK HP Hk8 key pt ct s t msg sig X PR e He)).
  assert (REP : forall e (He : e < T), honest_rep H I c (s_salt sig) (s_h1 sig) (s_h3 sig) (stream H (digest_size I =? 32) (root_input I key (pt ++ ct) msg) (32 + e * seed_size I) (seed_size I)) key pt s t e (pf_of sig e) (X e)) by (intros e He; exact (pr_reps PR e He)).
  split; [exact SS|]. split; [|split].
  - constructor; [exact (pr_points PR)|]. intros e He. rewrite S1, S2. exact (honest_ok H I c _ k0 OK HP Hk8 MM key pt ct s t KO _ _ _ _ e (pf_of sig e) (X e) (REP e He) (pf_shape I sig SS e He) (PE e He) Lct).
  - constructor; [symmetry; exact (pr_h1 PR)|symmetry; exact (pr_h3 PR)|]. intros e He.
    apply (opened H I c _ k0 OK HP Hk8 MM key pt ct s t KO _ _ _ _ e (pf_of sig e) (X e) (REP e He) (pf_shape I sig SS e He) (PE e He)).
  - intros e He. split; [intros p Hp'; symmetry; exact (hr_com (REP e He) p Hp')|]. split; [exact (honest_eval H I c key pt s t _ _ _ _ e (pf_of sig e) (X e) (REP e He))|].
    split; [intros p [D|[D|(j & _ & [D|D])]]; apply D; reflexivity|]. split; [|split].
    + apply (sum_key H I c _ k0 OK HP Hk8 MM key pt ct s t KO _ _ _ _ e (pf_of sig e) (X e) (REP e He) (pf_shape I sig SS e He)).
    + apply (sum_aes H I c _ k0 OK HP Hk8 MM key pt ct s t KO _ _ _ _ e (pf_of sig e) (X e) (REP e He) (pf_shape I sig SS e He)).
    + apply (sum_inv H I c _ k0 OK HP Hk8 MM key pt ct s t KO _ _ _ _ e (pf_of sig e) (X e) (REP e He) (pf_shape I sig SS e He)).
Qed.
End Api.
