(** Verification does not look at the unused entries of a reveal list (C58). *)
From Coq Require Import Arith NArith List Bool Lia.
From Verif Require Import Prelude FieldModel FieldApi PolyModel Instances HashModel TreeModel TreeSpec TreeProofs TreeApi TreeRev TreeExpand AesShares BanquetModel ListSum BanquetPure BanquetVerify Serialize BanquetApi SigSpec VerifyTree VerifyFacts FreeSpec FreeApi FillerSpec.
Import ListNotations.

Lemma replaced_length {A} (l : list A) i v : i < length l -> length (replaced l i v) = length l.
Proof. intros Hi. unfold replaced. rewrite app_length. cbn [length]. rewrite firstn_length, skipn_length. lia. Qed.
Lemma replaced_nth {A} (l : list A) i v j d : i < length l -> nth j (replaced l i v) d = if j =? i then v else nth j l d.
Proof.
  intros Hi. unfold replaced. destruct (Nat.eqb_spec j i) as [->|Ne].
  - rewrite app_nth2 by (rewrite firstn_length; lia). rewrite firstn_length, Nat.min_l, Nat.sub_diag by lia. reflexivity.
  - rewrite <- (firstn_skipn i l) at 3. destruct (le_lt_dec i j) as [G|G].
    + rewrite !app_nth2 by (rewrite firstn_length; lia). rewrite firstn_length, Nat.min_l by lia. destruct (skipn i l) as [|x r] eqn:Es.
      * apply (f_equal (@length A)) in Es. rewrite skipn_length in Es. cbn in Es. lia.
      * assert (skipn (S i) l = r) as ->. { rewrite <- (Nat.add_1_r i), <- skipn_add. rewrite Es. reflexivity. }
        destruct (j - i) as [|k] eqn:Ek; [lia|]. reflexivity.
    + rewrite !app_nth1 by (rewrite firstn_length; lia). reflexivity.
Qed.
Lemma replaced_map {A B} (f : A -> B) (l : list A) i v d : i < length l -> f v = f (nth i l d) -> map f (replaced l i v) = map f l.
Proof.
  intros Hi E. apply (nth_ext _ _ (f d) (f d)).
  - rewrite !map_length. apply replaced_length. exact Hi.
  - intros j _. rewrite !map_nth. rewrite replaced_nth by exact Hi. destruct (Nat.eqb_spec j i) as [->|_]; [exact E|reflexivity].
Qed.

Lemma replaced_in {A} (l : list A) i v u : In u (replaced l i v) -> u = v \/ In u l.
Proof.
  unfold replaced. intros J. apply in_app_or in J. destruct J as [J|[J|J]]; [right|left; symmetry; exact J|right].
  - rewrite <- (firstn_skipn i l). apply in_or_app. left. exact J.
  - rewrite <- (firstn_skipn (S i) l). apply in_or_app. right. exact J.
Qed.

(** *** the node without a sibling *)
Lemma iter_up i : forall L m, i <= L -> m < 2 ^ L -> Nat.iter i parent (2 ^ L - 1 + m) = 2 ^ (L - i) - 1 + m / 2 ^ i.
Proof.
  induction i as [|i IH]; intros L m Hi Hm; [cbn [Nat.iter Nat.pow]; rewrite Nat.sub_0_r, Nat.div_1_r; reflexivity|].
  change (Nat.iter (S i) parent (2 ^ L - 1 + m)) with (parent (Nat.iter i parent (2 ^ L - 1 + m))). rewrite IH by lia.
  unfold parent. replace (L - i) with (S (L - S i)) by lia. rewrite (Nat.pow_succ_r' 2 i), (Nat.mul_comm 2 (2 ^ i)), <- Nat.div_div by (try apply Nat.pow_nonzero; lia).
  set (q := m / 2 ^ i). pose proof (pow_pos (L - S i)) as P1. rewrite Nat.pow_succ_r'. set (p := 2 ^ (L - S i)) in *.
  replace (2 * p - 1 + q - 1) with (q + (p - 1) * 2) by lia. rewrite Nat.div_add by lia. lia.
Qed.
Lemma no_sibling N e m i : 2 <= N -> (forall k, flag e k = exf N k) -> m < N -> i < depth N -> unused N m i ->
  has_sibling e (Nat.iter i parent (first_leaf N + m)) = false.
Proof.
  intros HN He Hm Hi [U1 U2]. destruct (depth_spec N HN) as [[D1 D2] D3]. unfold first_leaf. rewrite iter_up by lia.
  unfold has_sibling. rewrite !He. set (q := m / 2 ^ i) in *. pose proof (pow_pos (depth N - i)) as P1.
  assert (EP : 2 ^ depth N = 2 ^ (depth N - i) * 2 ^ i) by (rewrite <- Nat.pow_add_r; f_equal; lia).
  assert (Q : q < 2 ^ (depth N - i)) by (apply Nat.div_lt_upper_bound; [apply Nat.pow_nonzero; lia|]; lia).
  assert (EV : exists h, 2 ^ (depth N - i) = 2 * h /\ 1 <= h).
  { exists (2 ^ (depth N - i - 1)). split; [rewrite <- Nat.pow_succ_r'; f_equal; lia|apply pow_pos]. }
  destruct EV as (h & Eh & H1). apply Nat.even_spec in U1. destruct U1 as [g Eg].
  assert (OD : Nat.odd (2 ^ (depth N - i) - 1 + q) = true). { apply Nat.odd_spec. exists (h + g - 1). lia. }
  assert (NX : exf N (2 ^ (depth N - i) - 1 + q + 1) = false).
  { unfold exf. apply Nat.ltb_ge. assert (LG : Nat.log2 (2 ^ (depth N - i) - 1 + q + 1 + 1) = depth N - i).
    { apply Nat.log2_unique; [lia|]. rewrite Nat.pow_succ_r'. lia. }
    rewrite LG. replace (depth N - (depth N - i)) with i by lia. rewrite EP. nia. }
  rewrite OD, NX. cbn. apply andb_false_r.
Qed.
Lemma foldM_ext_in {A B} (f g : B -> A -> res B) l : (forall b a, In a l -> f b a = g b a) -> forall b, foldM f l b = foldM g l b.
Proof.
  induction l as [|a l IH]; intros E b; [reflexivity|]. cbn [foldM]. rewrite (E b a) by (left; reflexivity). destruct (g b a); cbn [bind]; try reflexivity. apply IH. intros b' a' J. apply E. right. exact J.
Qed.
Lemma in_combine_seq {A} (l : list A) d k x : In (k, x) (combine (seq 0 (length l)) l) -> k < length l /\ x = nth k l d.
Proof.
  intros J. apply (In_nth _ _ (0, d)) in J. destruct J as (j & Hj & E). rewrite combine_length, seq_length, Nat.min_id in Hj. rewrite combine_nth in E by apply seq_length.
  rewrite seq_nth in E by exact Hj. injection E as <- <-. auto.
Qed.
Lemma rev_unused H salt rep entries m N ss i v : leaves_ok N -> 1 <= ss <= 32 -> length entries = ceil_log2_nat N -> (forall u : bytes, In u entries -> length u = ss) -> length v = ss ->
  m < N -> i < length entries -> unused N m i -> seed_tree_rev H salt rep (replaced entries i v, m) N = seed_tree_rev H salt rep (entries, m) N.
Proof.
  intros HL Hss Le Fe Lv Hm Hi U. destruct HL as [H2 HN]. unfold seed_tree_rev. rewrite (total_ok N (conj H2 HN)). cbn [bind fst snd].
  destruct (build_exists_ok N H2) as (e & -> & Lx & Ex). cbn [bind].
  assert (CL : ceil_log2_nat N = depth N) by (apply ceil_log2_depth; lia).
  assert (F : forall A (f : bytes -> res A), (forall u u', length u = length u' -> f u = f u') ->
    (do fr <- match replaced entries i v with [] => UB EmptyFront | u :: _ => Ok u end; f fr) = (do fr <- match entries with [] => UB EmptyFront | u :: _ => Ok u end; f fr)).
  { intros A f Ef. destruct entries as [|u r]; [cbn in Hi; lia|]. destruct i as [|i]; cbn [replaced firstn app bind]; [|reflexivity].
    unfold replaced. cbn [firstn app bind]. apply Ef. rewrite Lv. symmetry. apply Fe. left. reflexivity. }
  etransitivity; [|apply F; intros u u' ->; reflexivity].
  destruct (replaced entries i v) as [|fr rr] eqn:Er; [reflexivity|]. rewrite <- Er. cbn [bind].
  match goal with |- bind ?a _ = bind ?b _ => assert (a = b) as ->; [|reflexivity] end.
  apply foldM_ext_in. intros [d h] [k nd] J. unfold place_sibling.
  apply (in_combine_seq _ 0) in J. destruct J as [Jk Jn]. replace (2 ^ depth N - 1 + N - N + m) with (2 ^ depth N - 1 + m) in * by lia.
  pose proof (leaf_path_length N H2 m Hm) as PL. unfold first_leaf in PL.
  rewrite PL in Jk. rewrite iter_path in Jn by (rewrite PL; exact Jk).
  destruct (Nat.eq_dec k i) as [->|Nk].
  - rewrite Jn. pose proof (no_sibling N e m i H2 Ex Hm ltac:(lia) U) as NS. unfold first_leaf in NS. rewrite NS. reflexivity.
  - destruct (has_sibling e nd); [|reflexivity]. rewrite (get_ok entries k []) by lia. rewrite (get_ok (replaced entries i v) k []) by (rewrite replaced_length; lia).
    rewrite replaced_nth by exact Hi. destruct (Nat.eqb_spec k i); [contradiction|]. reflexivity.
Qed.

(** *** verification *)
Section Same.
Variables (H : oracle) (I : instance) (c : fctx).
Variables (sig : signature) (e i : nat) (v : bytes).
Hypothesis HL : leaves_ok (num_parties I).
Hypothesis Hss : 1 <= seed_size I <= 32.
Hypothesis SS : sig_shape I sig.
Hypothesis He : e < num_rounds I.
Hypothesis Hi : i < Nat.log2_up (num_parties I).
Hypothesis Hv : str (seed_size I) v.
Notation m := (snd (p_reveal (pf_of sig e))).
Hypothesis Hm : m < num_parties I.
Hypothesis U : unused (num_parties I) m i.
Notation sig' := (with_entry sig e i v).
Let Le : e < length (s_proofs sig).
Proof. rewrite (ss_len _ _ SS). exact He. Qed.
Let SP : proof_shape I (pf_of sig e).
Proof. pose proof (ss_proofs _ _ SS) as F. rewrite Forall_forall in F. apply F. apply nth_In. exact Le. Qed.
Let Hi' : i < length (fst (p_reveal (pf_of sig e))).
Proof. rewrite (ps_entries _ _ SP). destruct HL as [A B]. rewrite ceil_log2_depth by lia. exact Hi. Qed.

Lemma with_entry_shape : sig_shape I sig'.
Proof.
  destruct SS as [A B C D F]. constructor; cbn [with_entry s_salt s_h1 s_h3 s_proofs]; try assumption.
  - rewrite replaced_length by exact Le. exact D.
  - apply Forall_forall. intros u J. apply replaced_in in J. destruct J as [->|J]; [|rewrite Forall_forall in F; apply F; exact J].
    destruct SP as [S1 S2 S3 S4 S5 S6 S7 S8 S9]. constructor; cbn [p_reveal p_C p_sk_delta p_t_delta p_P_delta p_P_at_R p_S_at_R p_T_at_R fst snd]; try assumption.
    + rewrite replaced_length by exact Hi'. exact S1.
    + intros u J. apply replaced_in in J. destruct J as [->|J]; [exact Hv|apply S2; exact J].
Qed.
Lemma get_same {A} rep (f : rep_proof -> res A) : rep < num_rounds I -> (rep = e -> f (pf_of sig' e) = f (pf_of sig e)) ->
  (do p <- get (s_proofs sig') rep; f p) = (do p <- get (s_proofs sig) rep; f p).
Proof.
  intros Hr Ef. set (d0 := mkProof ([], 0) [] [] [] [] 0%N [] []). rewrite (get_ok (s_proofs sig') rep d0) by (cbn [with_entry s_proofs]; rewrite replaced_length by exact Le; rewrite (ss_len _ _ SS); exact Hr).
  rewrite (get_ok (s_proofs sig) rep d0) by (rewrite (ss_len _ _ SS); exact Hr). cbn [bind].
  destruct (Nat.eq_dec rep e) as [->|Ne]; [exact (Ef eq_refl)|]. f_equal. cbn [with_entry s_proofs]. rewrite replaced_nth by exact Le. destruct (Nat.eqb_spec rep e); [contradiction|reflexivity].
Qed.
Lemma pf_with : pf_of sig' e = mkProof (replaced (fst (p_reveal (pf_of sig e))) i v, m) (p_C (pf_of sig e)) (p_sk_delta (pf_of sig e)) (p_t_delta (pf_of sig e)) (p_P_delta (pf_of sig e)) (p_P_at_R (pf_of sig e)) (p_S_at_R (pf_of sig e)) (p_T_at_R (pf_of sig e)).
Proof. unfold pf_of at 1. cbn [with_entry s_proofs]. rewrite replaced_nth by exact Le. rewrite Nat.eqb_refl. reflexivity. Qed.
Lemma map_same {B} (f : rep_proof -> B) : f (pf_of sig' e) = f (pf_of sig e) -> map f (s_proofs sig') = map f (s_proofs sig).
Proof. intros E. rewrite pf_with in E. cbn [with_entry s_proofs]. apply (replaced_map f _ _ _ (mkProof ([], 0) [] [] [] [] 0%N [] []) Le). exact E. Qed.
Lemma relations_same : verify_relations I c (s_proofs sig') (seq 0 (num_rounds I)) = verify_relations I c (s_proofs sig) (seq 0 (num_rounds I)).
Proof.
  assert (G : forall k s, s + k <= num_rounds I -> verify_relations I c (s_proofs sig') (seq s k) = verify_relations I c (s_proofs sig) (seq s k)); [|apply G; lia].
  induction k as [|k IH]; intros s Hk; [reflexivity|]. cbn [seq verify_relations]. rewrite IH by lia. apply get_same; [lia|]. intros _. rewrite pf_with. reflexivity.
Qed.
Lemma contexts_same fuel garb pk msg : verify_contexts H I c fuel garb pk sig' msg = verify_contexts H I c fuel garb pk sig msg.
Proof.
  unfold verify_contexts. rewrite (map_same p_P_delta), (map_same p_sk_delta), (map_same p_t_delta) by (rewrite pf_with; reflexivity).
  change (s_salt sig') with (s_salt sig). change (s_h1 sig') with (s_h1 sig). change (s_h3 sig') with (s_h3 sig).
  destruct (read pk 0 (pt_size I)) as [pt| | |]; cbn [bind]; try reflexivity. destruct (read pk (pt_size I) (pt_size I)) as [ct| | |]; cbn [bind]; try reflexivity.
  destruct (phase_2_commitment H I _ _ _) as [h2| | |]; cbn [bind]; try reflexivity. destruct (phase_1_expand H I c _) as [rss| | |]; cbn [bind]; try reflexivity.
  destruct (phase_2_expand H I c fuel h2 _) as [Rs| | |]; cbn [bind]; try reflexivity. destruct (phase_3_expand H I fuel garb _) as [ms| | |]; cbn [bind]; try reflexivity.
  assert (E0 : mapM (fun rep => do proof <- get (s_proofs sig') rep; do m <- get ms rep; verify_setup H I (s_salt sig) proof rep m) (seq 0 (num_rounds I)) =
               mapM (fun rep => do proof <- get (s_proofs sig) rep; do m <- get ms rep; verify_setup H I (s_salt sig) proof rep m) (seq 0 (num_rounds I))).
  { apply mapM_ext. intros rep J. apply in_seq in J. apply get_same; [lia|]. intros ->. destruct (get ms e) as [k| | |]; cbn [bind]; try reflexivity.
    assert (RU : seed_tree_rev H (s_salt sig) e (replaced (fst (p_reveal (pf_of sig e))) i v, m) (num_parties I) = seed_tree_rev H (s_salt sig) e (p_reveal (pf_of sig e)) (num_parties I)).
    { etransitivity; [apply (rev_unused H (s_salt sig) e (fst (p_reveal (pf_of sig e))) m (num_parties I) (seed_size I) i v HL Hss (ps_entries _ _ SP))|].
      - intros u J2. apply (ps_entry _ _ SP). exact J2.
      - apply Hv.
      - exact Hm.
      - exact Hi'.
      - exact U.
      - rewrite <- surjective_pairing. reflexivity. }
    rewrite pf_with. unfold verify_setup. cbn [p_reveal p_C snd]. rewrite RU. reflexivity. }
  rewrite E0. clear E0. destruct (mapM _ (seq 0 (num_rounds I))) as [setup| | |]; cbn [bind]; try reflexivity.
  assert (E1 : mapM (fun rep => do proof <- get (s_proofs sig') rep; do m <- get ms rep; do tp <- get (map snd setup) rep; verify_phase1 I pt ct proof m tp) (seq 0 (num_rounds I)) =
               mapM (fun rep => do proof <- get (s_proofs sig) rep; do m <- get ms rep; do tp <- get (map snd setup) rep; verify_phase1 I pt ct proof m tp) (seq 0 (num_rounds I))).
  { apply mapM_ext. intros rep J. apply in_seq in J. apply get_same; [lia|]. intros ->. rewrite pf_with. reflexivity. }
  rewrite E1. clear E1. destruct (mapM _ (seq 0 (num_rounds I))) as [ph1| | |]; cbn [bind]; try reflexivity.
  destruct (precompute_lagrange_polynomials _ (get_first_n_field_elements c (m2 I + 1))) as [pre1| | |]; cbn [bind]; try reflexivity.
  destruct (precompute_lagrange_polynomials _ (get_first_n_field_elements c (2 * m2 I + 1))) as [pre2| | |]; cbn [bind]; try reflexivity.
  match goal with |- bind (mapM ?f ?l) _ = bind (mapM ?g ?l) _ => assert (E2 : mapM f l = mapM g l) end.
  { apply mapM_ext. intros rep J. apply in_seq in J. apply get_same; [lia|]. intros ->. rewrite pf_with. reflexivity. }
  rewrite E2. clear E2. destruct (mapM _ (seq 0 (num_rounds I))) as [ph3| | |]; cbn [bind]; try reflexivity.
  match goal with |- bind (mapM ?f ?l) _ = bind (mapM ?g ?l) _ => assert (E3 : mapM f l = mapM g l) end.
  { apply mapM_ext. intros rep J. apply in_seq in J. apply get_same; [lia|]. intros ->. rewrite pf_with. reflexivity. }
  rewrite E3. reflexivity.
Qed.
Lemma body_same fuel garb pk msg : verify_body H I c fuel garb pk sig' msg = verify_body H I c fuel garb pk sig msg.
Proof. unfold verify_body. rewrite contexts_same, relations_same. reflexivity. Qed.
End Same.
