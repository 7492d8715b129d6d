(** Concrete runs of banquet_verify, for PropVerify: the first parameter set, a key pair from keygen and a hash function whose
    output bytes are all v; with v = 64 the first party stays closed in every repetition, with v = 255 the last. *)
From Coq Require Import Arith NArith ZArith List Bool Lia.
From Verif Require Import Prelude FieldModel FieldSpec FieldApi FieldLin Instances HashModel TreeModel TreeSpec AesSpec AesBase AesApi AesShares BanquetModel BanquetPure BanquetVerify BanquetHash Serialize BanquetApi SignFacts ChallengeFacts TapeFacts HashFacts SerialFacts ShareFacts KeygenBad PropSign SigSpec VerifyTree VerifyFacts VerifyOutcome AcceptFacts AlterFacts.
Import ListNotations.

Definition same (v : N) : oracle := fun _ _ _ => v.
(** replacing the proof of repetition 0 *)
Definition with_first (f : rep_proof -> rep_proof) (sig : signature) : signature :=
  mkSig (s_salt sig) (s_h1 sig) (s_h3 sig) (match s_proofs sig with [] => [] | p :: l => f p :: l end).
(** another value of P at R *)
Definition other_P (p : rep_proof) : rep_proof :=
  mkProof (p_reveal p) (p_C p) (p_sk_delta p) (p_t_delta p) (p_P_delta p) (if N.eqb (p_P_at_R p) 0 then 1%N else 0%N) (p_S_at_R p) (p_T_at_R p).
(** another index of the opened party *)
Definition other_index (p : rep_proof) : rep_proof :=
  mkProof (fst (p_reveal p), S (snd (p_reveal p))) (p_C p) (p_sk_delta p) (p_t_delta p) (p_P_delta p) (p_P_at_R p) (p_S_at_R p) (p_T_at_R p).
(** another last correction of P *)
Definition other_last (I : instance) (p : rep_proof) : rep_proof := with_last I p (if N.eqb (nth (m2 I) (p_P_delta p) 0%N) 0 then 1%N else 0%N).

Lemma I1_builtin : builtin I1.
Proof. exists 1%Z. reflexivity. Qed.
Lemma I1_field : exists c, init_extension_field (lambda I1) = Ok c.
Proof. destruct (init_extension_field (lambda I1)) as [c| | |] eqn:Ec; [exists c; reflexivity|discriminate Ec..]. Qed.
Definition allowed (v : N) : Prop := forall c h2 k, init_extension_field (lambda I1) = Ok c -> ~ In (from_bytes (stream (same v) (digest_size I1 =? 32) h2 k (lambda I1))) (get_first_n_field_elements c (2 * m2 I1)).
Lemma allowed_64 : allowed 64.
Proof.
  intros c h2 k Ec. injection Ec as <-. change (stream (same 64) (digest_size I1 =? 32) h2 k (lambda I1)) with [64; 64; 64; 64]%N.
  intros X. vm_compute in X. repeat (destruct X as [X|X]; [discriminate X|]). exact X.
Qed.
Lemma allowed_255 : allowed 255.
Proof.
  intros c h2 k Ec. injection Ec as <-. change (stream (same 255) (digest_size I1 =? 32) h2 k (lambda I1)) with [255; 255; 255; 255]%N.
  intros X. vm_compute in X. repeat (destruct X as [X|X]; [discriminate X|]). exact X.
Qed.
Lemma points_incl c k x : In x (get_first_n_field_elements c k) -> In x (get_first_n_field_elements c (2 * k)).
Proof.
  unfold get_first_n_field_elements. assert (G : forall a b g, a <= b -> In x (first_elements_loop c a g) -> In x (first_elements_loop c b g)); [|apply G; lia].
  induction a; intros b g Hab; [contradiction|]. destruct b; [lia|]. cbn [first_elements_loop]. intros [Q|Q]; [left; exact Q|right]. apply IHa; [lia|exact Q].
Qed.
Lemma case_sign v : allowed v -> exists kp, keygen 1 I1 ex_rng = Ok kp /\ str (2 * pt_size I1) (snd kp) /\
  forall msg, exists sig, sig_shape I1 sig /\ forall fuel garb st, 1 <= fuel -> snd (verify (same v) fuel garb st I1 (snd kp) sig msg) = Ok true.
Proof.
  intros AL. destruct (keygen 1 I1 ex_rng) as [kp| | |] eqn:E; [|exfalso; revert E; vm_compute; discriminate..].
  exists kp. split; [reflexivity|]. destruct I1_field as [c Ec].
  destruct (key_cases I1 1 ex_rng kp (builtin_regular _ I1_builtin) ex_rng_bytes E) as (c' & key & pt & ct & OK & -> & Hk & Hp & Hct).
  split.
  { assert (Q : match keygen 1 I1 ex_rng with Ok k => (length (snd k) =? 2 * pt_size I1) && forallb (fun b => b <? 256)%N (snd k) | _ => false end = true) by (vm_compute; reflexivity).
    rewrite E in Q. apply andb_prop in Q. destruct Q as [Q1 Q2]. apply Nat.eqb_eq in Q1. split; [exact Q1|]. apply Forall_forall. intros b Hb. apply N.ltb_lt. exact (proj1 (forallb_forall _ _) Q2 b Hb). }
  intros msg. destruct (sign_returns (same v) I1 c 1 ex_rng (key, pt ++ ct) msg 1 (fun _ => 0%N) None (builtin_regular _ I1_builtin) Ec ex_rng_bytes E (le_n 1)) as [[sig X]|(_ & h2 & k & X)].
  - exists sig. destruct (sign (same v) 1 (fun _ => 0%N) None I1 (key, pt ++ ct) msg) as [st' r] eqn:ES. cbn [snd] in X. subst r. split.
    + apply (sign_shape (same v) I1 c' _ OK key pt ct Hk Hp Hct _ _ _ _ _ _ ES).
    + intros fuel garb st Hf. apply (honest_verify (same v) I1 1 ex_rng (key, pt ++ ct) msg 1 _ _ _ _ (builtin_regular _ I1_builtin) ex_rng_bytes E ES). exact Hf.
  - exfalso. exact (AL c h2 _ Ec (points_incl _ _ _ (X 0 (le_n 1)))).
Qed.

Section Cases.
Variable v : N.
Hypothesis AL : allowed v.
Variables (c : fctx) (pk : bytes) (sig : signature) (msg : bytes).
Hypothesis Hc : init_extension_field (lambda I1) = Ok c.
Hypothesis Hpk : str (2 * pt_size I1) pk.
Hypothesis SS : sig_shape I1 sig.
Hypothesis V : forall fuel garb st, 1 <= fuel -> snd (verify (same v) fuel garb st I1 pk sig msg) = Ok true.
Let HB := builtin_regular _ I1_builtin.
Lemma not_stuck fuel garb st s m : sig_shape I1 s -> 1 <= fuel -> snd (verify (same v) fuel garb st I1 pk s m) <> OutOfFuel.
Proof.
  intros Sh Hf E. pose proof (outcomes (same v) I1 c HB Hc fuel garb st pk s m Sh Hpk Hf) as O. rewrite E in O. destruct O as [k O]. specialize (O 0 Hf).
  unfold forbidden in O. apply existsb_exists in O. destruct O as (x & Hx & Q). apply N.eqb_eq in Q. subst x. exact (AL c _ _ Hc (points_incl _ _ _ Hx)).
Qed.
Lemma same_digest a b : digest (same v) I1 a = digest (same v) I1 b.
Proof. reflexivity. Qed.
Lemma rounds_pos : 0 < num_rounds I1.
Proof. apply Nat.ltb_lt. vm_compute. reflexivity. Qed.
Lemma first_proof : exists p l, s_proofs sig = p :: l /\ pf_of sig 0 = p /\ proof_shape I1 p /\ Forall (proof_shape I1) l.
Proof.
  destruct (s_proofs sig) as [|p l] eqn:E; [pose proof (ss_len _ _ SS) as L; rewrite E in L; vm_compute in L; discriminate L|]. exists p, l. split; [reflexivity|]. split; [unfold pf_of; rewrite E; reflexivity|].
  pose proof (ss_proofs _ _ SS) as F. rewrite E in F. inversion F; subst. split; assumption.
Qed.
Lemma with_first_shape f : (forall p, proof_shape I1 p -> proof_shape I1 (f p)) -> sig_shape I1 (with_first f sig).
Proof.
  intros Hf. destruct first_proof as (p & l & E & _ & Sp & Sl). constructor; try apply SS; unfold with_first; cbn [s_proofs]; rewrite E.
  - pose proof (ss_len _ _ SS) as L. rewrite E in L. exact L.
  - constructor; [apply Hf; exact Sp|exact Sl].
Qed.
Lemma with_first_0 f : pf_of (with_first f sig) 0 = f (pf_of sig 0).
Proof. destruct first_proof as (p & l & E & _). unfold with_first, pf_of. cbn [s_proofs]. rewrite E. reflexivity. Qed.
Lemma with_first_S f e : pf_of (with_first f sig) (S e) = pf_of sig (S e).
Proof. destruct first_proof as (p & l & E & _). unfold with_first, pf_of. cbn [s_proofs]. rewrite E. reflexivity. Qed.
Lemma indices e : e < num_rounds I1 -> snd (p_reveal (pf_of sig e)) = hidden_of (same v) I1 sig e.
Proof. pose proof (outcomes (same v) I1 c HB Hc 1 (fun _ => 0%N) None pk sig msg SS Hpk (le_n 1)) as O. rewrite (V 1 _ _ (le_n 1)) in O. apply O. Qed.
Lemma elt_01 (b : bool) : elt (lambda I1) (if b then 1%N else 0%N).
Proof. destruct b; vm_compute; reflexivity. Qed.

(** with this hash function the message does not matter *)
Lemma other_message msg' : forall fuel garb st, 1 <= fuel -> snd (verify (same v) fuel garb st I1 pk sig msg') = Ok true.
Proof.
  intros fuel garb st Hf. pose proof (outcomes (same v) I1 c HB Hc fuel garb st pk sig msg' SS Hpk Hf) as O. pose proof (not_stuck fuel garb st sig msg' SS Hf) as NS.
  destruct (snd (verify (same v) fuel garb st I1 pk sig msg')) as [b|x|u|] eqn:E; [|destruct O as [_ (e & He & Ne)]; exfalso; exact (Ne (indices e He))|destruct O|congruence].
  destruct (acceptance (same v) I1 c HB Hc fuel garb st pk sig msg' b SS Hpk Hf E) as [[X TR] A]. f_equal. apply (A X TR).
  destruct (acceptance (same v) I1 c HB Hc fuel garb st pk sig msg true SS Hpk Hf (V _ _ _ Hf)) as [_ A']. destruct (proj1 (A' X TR) eq_refl) as [A1 A3 AR]. constructor; [|exact A3|exact AR].
  rewrite <- A1. reflexivity.
Qed.
(** a false product is rejected *)
Lemma rejected : sig_shape I1 (with_first other_P sig) /\ forall fuel garb st, 1 <= fuel -> snd (verify (same v) fuel garb st I1 pk (with_first other_P sig) msg) = Ok false.
Proof.
  assert (Sh : sig_shape I1 (with_first other_P sig)).
  { apply with_first_shape. intros p [P1 P2 P3 P4 P5 P6 P7 P8 P9]. constructor; try assumption. apply elt_01. }
  split; [exact Sh|]. intros fuel garb st Hf. pose proof (outcomes (same v) I1 c HB Hc fuel garb st pk _ msg Sh Hpk Hf) as O. pose proof (not_stuck fuel garb st _ msg Sh Hf) as NS.
  destruct (snd (verify (same v) fuel garb st I1 pk (with_first other_P sig) msg)) as [b|x|u|] eqn:E; [| |destruct O|congruence].
  - destruct b; [exfalso|reflexivity]. destruct (acceptance (same v) I1 c HB Hc fuel garb st pk _ msg true Sh Hpk Hf E) as [[X TR] A].
    pose proof (ac_rel _ _ _ _ _ _ _ (proj1 (A X TR) eq_refl) 0 rounds_pos) as R1. rewrite with_first_0 in R1. cbn [other_P p_S_at_R p_T_at_R p_P_at_R] in R1.
    destruct (acceptance (same v) I1 c HB Hc fuel garb st pk sig msg true SS Hpk Hf (V _ _ _ Hf)) as [[Y TY] B]. pose proof (ac_rel _ _ _ _ _ _ _ (proj1 (B Y TY) eq_refl) 0 rounds_pos) as R2.
    rewrite R2 in R1. destruct (N.eqb_spec (p_P_at_R (pf_of sig 0)) 0) as [Z|Z]; congruence.
  - exfalso. destruct O as [_ (e & He & Ne)]. apply Ne. change (hidden_of (same v) I1 (with_first other_P sig) e) with (hidden_of (same v) I1 sig e). rewrite <- indices by exact He.
    destruct e; [rewrite with_first_0; reflexivity|rewrite with_first_S; reflexivity].
Qed.
(** another index makes verification throw *)
Lemma thrown : sig_shape I1 (with_first other_index sig) /\ forall fuel garb st, 1 <= fuel -> exists x, snd (verify (same v) fuel garb st I1 pk (with_first other_index sig) msg) = Throw x.
Proof.
  assert (Sh : sig_shape I1 (with_first other_index sig)).
  { apply with_first_shape. intros p [P1 P2 P3 P4 P5 P6 P7 P8 P9]. constructor; assumption. }
  split; [exact Sh|]. intros fuel garb st Hf. apply (outcomes_iff (same v) I1 c HB Hc fuel garb st pk _ msg Sh Hpk Hf (not_stuck fuel garb st _ msg Sh Hf)).
  exists 0. split; [exact rounds_pos|]. rewrite with_first_0. change (hidden_of (same v) I1 (with_first other_index sig) 0) with (hidden_of (same v) I1 sig 0). rewrite <- indices by exact rounds_pos. cbn [other_index p_reveal snd]. lia.
Qed.
(** with this hash function the hidden party's commitment does not matter *)
Definition other_C (p : rep_proof) : rep_proof :=
  mkProof (p_reveal p) (map (fun b => if N.eqb b 0 then 1%N else 0%N) (p_C p)) (p_sk_delta p) (p_t_delta p) (p_P_delta p) (p_P_at_R p) (p_S_at_R p) (p_T_at_R p).
Lemma other_commitment : sig_shape I1 (with_first other_C sig) /\ sig <> with_first other_C sig /\
  forall fuel garb st, 1 <= fuel -> snd (verify (same v) fuel garb st I1 pk (with_first other_C sig) msg) = Ok true.
Proof.
  assert (Sh : sig_shape I1 (with_first other_C sig)).
  { apply with_first_shape. intros p [P1 P2 P3 P4 P5 P6 P7 P8 P9]. constructor; try assumption. destruct P3 as [L F]. split; [exact (eq_trans (map_length _ _) L)|]. apply Forall_map, Forall_forall. intros b _. destruct (N.eqb b 0); reflexivity. }
  split; [exact Sh|]. split.
  { intros Q. apply (f_equal (fun s => p_C (pf_of s 0))) in Q. rewrite with_first_0 in Q. cbn [other_C p_C] in Q. destruct (ps_C _ _ (pf_shape I1 sig SS 0 rounds_pos)) as [L _].
    destruct (p_C (pf_of sig 0)) as [|b l]; [discriminate L|]. cbn [map] in Q. injection Q as Q _. destruct (N.eqb_spec b 0); congruence. }
  intros fuel garb st Hf. pose proof (outcomes (same v) I1 c HB Hc fuel garb st pk _ msg Sh Hpk Hf) as O. pose proof (not_stuck fuel garb st _ msg Sh Hf) as NS.
  destruct (snd (verify (same v) fuel garb st I1 pk (with_first other_C sig) msg)) as [b|x|u|] eqn:E; [| |destruct O|congruence].
  - destruct (acceptance (same v) I1 c HB Hc fuel garb st pk _ msg b Sh Hpk Hf E) as [[X TR] A]. f_equal. apply (A X TR).
    destruct (acceptance (same v) I1 c HB Hc fuel garb st pk sig msg true SS Hpk Hf (V _ _ _ Hf)) as [[Y TY] B]. destruct (proj1 (B Y TY) eq_refl) as [A1 A3 AR]. constructor.
    + exact (eq_trans (same_digest _ _) A1).
    + exact (eq_trans (same_digest _ _) A3).
    + intros [|e] He; [rewrite with_first_0; exact (AR 0 He)|rewrite with_first_S; exact (AR (S e) He)].
  - exfalso. destruct O as [_ (e & He & Ne)]. apply Ne. change (hidden_of (same v) I1 (with_first other_C sig) e) with (hidden_of (same v) I1 sig e). rewrite <- indices by exact He.
    destruct e; [rewrite with_first_0; reflexivity|rewrite with_first_S; reflexivity].
Qed.
Lemma transcript_points X e : is_transcript (same v) I1 c pk sig X -> e < num_rounds I1 -> ~ In (x_point (X e)) (get_first_n_field_elements c (2 * m2 I1)).
Proof.
  intros TR He J. destruct (tr_points _ _ _ _ _ _ TR) as [M EM]. assert (K : In (x_point (X e)) (map (fun e => x_point (X e)) (seq 0 (num_rounds I1)))) by (apply (in_map (fun e => x_point (X e))), in_seq; lia).
  rewrite EM in K. apply filter_In in K. destruct K as [K _]. apply in_map_iff in K. destruct K as (k & Q & _). rewrite <- Q in J. exact (AL c _ _ Hc J).
Qed.
(** the last correction of P can be changed *)
Lemma malleable : (v mod 256 mod N.of_nat (num_parties I1))%N = 0%N -> exists sig' X, sig <> sig' /\ s_h1 sig = s_h1 sig' /\ s_h3 sig = s_h3 sig' /\ sig_shape I1 sig' /\
  (forall fuel garb st, 1 <= fuel -> snd (verify (same v) fuel garb st I1 pk sig' msg) = Ok true) /\
  is_transcript (same v) I1 c pk sig X /\ is_transcript (same v) I1 c pk sig' X /\ ~ collision_between (same v) I1 pk msg sig sig' X X.
Proof.
  intros Hv. destruct (acceptance (same v) I1 c HB Hc 1 (fun _ => 0%N) None pk sig msg true SS Hpk (le_n 1) (V _ _ _ (le_n 1))) as [[X TR] A].
  exists (with_first (other_last I1) sig), X. destruct first_proof as (p & l & E & Ep & Sp & Sl).
  assert (SB : same_but_last I1 c sig (with_first (other_last I1) sig) X).
  { constructor; try reflexivity; [unfold with_first; cbn [s_proofs]; rewrite E; reflexivity|]. intros [|e] He; [right|left; apply with_first_S].
    rewrite with_first_0. eexists. split; [|split; [reflexivity|left]]; [apply elt_01|]. rewrite (ro_hidden _ _ _ _ _ _ _ _ _ _ _ (tr_reps _ _ _ _ _ _ TR 0 He)). unfold same. rewrite Hv. reflexivity. }
  assert (OF : forall fuel, 1 <= fuel -> _) by exact (fun fuel Hf => offset_free (same v) I1 c HB Hc fuel (fun _ => 0%N) None pk msg sig _ X SS Hpk Hf (V _ _ _ Hf) TR SB).
  split.
  { intros Q. apply (f_equal (fun s => nth (m2 I1) (p_P_delta (pf_of s 0)) 0%N)) in Q. rewrite with_first_0 in Q. cbn [other_last with_last p_P_delta] in Q. rewrite app_nth2 in Q by (rewrite firstn_length; lia).
    rewrite firstn_length, Nat.min_l in Q by (rewrite (proj1 (ps_P _ _ (pf_shape I1 sig SS 0 rounds_pos))); lia). rewrite Nat.sub_diag in Q. cbn [nth] in Q.
    destruct (N.eqb_spec (nth (m2 I1) (p_P_delta (pf_of sig 0)) 0%N) 0) as [Z|Z]; congruence. }
  split; [reflexivity|]. split; [reflexivity|]. destruct (OF 1 (le_n 1)) as (O1 & O2 & O3 & _). split; [exact O1|].
  split; [intros fuel garb st Hf; destruct (OF fuel Hf) as (_ & _ & _ & O4); apply O4|]. split; [exact TR|]. split; [exact O2|exact O3].
Qed.
End Cases.
