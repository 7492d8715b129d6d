(** A commitment that is longer than its slot is written into the slots behind it (C76). *)
From Coq Require Import Arith NArith List Bool Lia.
From Verif Require Import Prelude ListSum FieldModel PolyModel PolyProofs Instances HashModel TreeModel AesModel AesShares ContainerModel BanquetModel MemModel LooseSpec LooseFacts MemLoose.
Import ListNotations.

(** the same proof, and the same signature, with another commitment of the closed party *)
Definition with_C (p : rep_proof) (C : bytes) : rep_proof :=
  mkProof (p_reveal p) C (p_sk_delta p) (p_t_delta p) (p_P_delta p) (p_P_at_R p) (p_S_at_R p) (p_T_at_R p).
Definition with_commitment (s : signature) (e : nat) (C : bytes) : signature :=
  mkSig (s_salt s) (s_h1 s) (s_h3 s) (match nth_error (s_proofs s) e with Some p => upd (s_proofs s) e (with_C p C) | None => s_proofs s end).

(** ** writing what is there already *)
Lemma skipn_more {A} (l : list A) a b : skipn a (skipn b l) = skipn (a + b) l.
Proof. revert l. induction b as [|b IH]; intros l; [rewrite Nat.add_0_r; reflexivity|]. rewrite Nat.add_succ_r. destruct l as [|x l]; [rewrite !skipn_nil; reflexivity|]. cbn [skipn]. apply IH. Qed.
Lemma nth_error_ext' {A} (l l' : list A) : (forall i, nth_error l i = nth_error l' i) -> l = l'.
Proof.
  revert l'. induction l as [|a l IH]; intros [|b l'] E; [reflexivity|specialize (E 0); discriminate E|specialize (E 0); discriminate E|].
  pose proof (E 0) as E0. injection E0 as ->. f_equal. apply IH. intros i. exact (E (S i)).
Qed.
Lemma write_more {A} (c : container A) off v k : off + length v + k <= length (k_data c) ->
  k_write c off (v ++ slice (k_data c) (off + length v) k) = k_write c off v.
Proof.
  intros L. unfold k_write. assert (LS : length (slice (k_data c) (off + length v) k) = k) by (unfold slice; rewrite firstn_length, skipn_length; lia).
  rewrite app_length, LS. rewrite !(proj2 (Nat.leb_le _ _)) by lia. f_equal. f_equal. f_equal. rewrite <- app_assoc. f_equal.
  unfold slice. rewrite Nat.add_assoc. replace (off + length v + k) with (k + (off + length v)) by lia. rewrite <- (skipn_more (k_data c) k (off + length v)). apply firstn_skipn.
Qed.
Lemma foldM_split {A S} (f : S -> A -> res S) l1 l2 s : foldM f (l1 ++ l2) s = bind (foldM f l1 s) (foldM f l2).
Proof. revert s. induction l1 as [|a l1 IH]; intros s; cbn [app foldM bind]; [reflexivity|]. destruct (f s a); cbn [bind]; auto. Qed.

Lemma nth_upd_error {A} (l : list A) i j x y : nth_error l i = Some y -> nth_error (upd l i x) j = if j =? i then Some x else nth_error l j.
Proof.
  intros E. assert (Hi : i < length l) by (apply nth_error_Some; congruence).
  destruct (Nat.lt_ge_cases j (length l)) as [Hj|Hj].
  - rewrite (nth_error_nth' _ x) by (rewrite upd_length; exact Hj). rewrite (nth_error_nth' l x Hj). rewrite nth_upd. rewrite (proj2 (Nat.ltb_lt j (length l)) Hj). destruct (j =? i); reflexivity.
  - rewrite (proj2 (nth_error_None _ _)) by (rewrite upd_length; exact Hj). rewrite (proj2 (nth_error_None l j) Hj). destruct (Nat.eqb_spec j i) as [->|]; [lia|reflexivity].
Qed.

Section Spill.
Variables (H : oracle) (I : instance).
Local Notation n := (num_parties I).
Local Notation T := (num_rounds I).
Local Notation ds := (digest_size I).

(** ** one repetition *)
Lemma setup_spill salt p rep missing m k : sized2 I m -> rep * n * ds + snd (p_reveal p) * ds + length (p_C p) + k <= T * n * ds ->
  exists D, length D = k /\ m_verify_setup H I salt (with_C p (p_C p ++ D)) rep missing m = m_verify_setup H I salt p rep missing m.
Proof.
  intros [S1 S2] L. destruct m as [coms tapes]. cbn [fst snd] in *.
  unfold m_verify_setup. cbn [with_C p_reveal p_C]. destruct (Nat.eqb_spec missing (snd (p_reveal p))) as [->|]; [|exists (repeat 0%N k); split; [apply repeat_length|reflexivity]]. cbn [negb].
  destruct (seed_tree_rev H salt rep (p_reveal p) n) as [t|e|r|]; cbn [bind]; try (exists (repeat 0%N k); split; [apply repeat_length|reflexivity]). cbv zeta.
  match goal with |- context [bind (loop4 n ?f4 ?f1 coms)] => destruct (loop4 n f4 f1 coms) as [c1|e|r|] eqn:E1 end; cbn [bind]; try (exists (repeat 0%N k); split; [apply repeat_length|reflexivity]).
  assert (S3 : sized c1 T n ds) by exact (coms_before_sized H I salt t rep _ coms c1 _ _ _ E1 S1). destruct S3 as (R1 & R2 & R3 & R4).
  exists (slice (k_data c1) (k_offset c1 rep (snd (p_reveal p)) + length (p_C p)) k).
  assert (O : k_offset c1 rep (snd (p_reveal p)) = rep * n * ds + snd (p_reveal p) * ds) by (unfold k_offset; rewrite R2, R3; reflexivity).
  split; [unfold slice; rewrite firstn_length, skipn_length; lia|]. unfold m_copy, k_put. rewrite write_more by lia. reflexivity.
Qed.

(** ** the rest does not see the commitment *)
Variables (sig : signature) (e : nat) (p : rep_proof).
Hypothesis Ep : nth_error (s_proofs sig) e = Some p.
Hypothesis He : e < T.
Lemma proofs_at C : s_proofs (with_commitment sig e C) = upd (s_proofs sig) e (with_C p C).
Proof. unfold with_commitment. cbn [s_proofs]. rewrite Ep. reflexivity. Qed.
Lemma bind_get {B} C rep (g : rep_proof -> res B) : (forall q D, g (with_C q D) = g q) ->
  (do q <- get (s_proofs (with_commitment sig e C)) rep; g q) = (do q <- get (s_proofs sig) rep; g q).
Proof.
  intros HG. rewrite proofs_at. unfold get. rewrite (nth_upd_error _ _ _ _ _ Ep). destruct (Nat.eqb_spec rep e) as [->|]; [|reflexivity]. rewrite Ep. cbn [bind]. apply HG.
Qed.
Lemma map_field {B} (f : rep_proof -> B) C : (forall q D, f (with_C q D) = f q) -> map f (s_proofs (with_commitment sig e C)) = map f (s_proofs sig).
Proof.
  intros HF. apply nth_error_ext'. intros j. rewrite !nth_error_map, proofs_at, (nth_upd_error _ _ _ _ _ Ep). destruct (Nat.eqb_spec j e) as [->|]; [|reflexivity]. rewrite Ep. cbn [option_map]. rewrite HF. reflexivity.
Qed.
Lemma relations_C c C l : verify_relations I c (s_proofs (with_commitment sig e C)) l = verify_relations I c (s_proofs sig) l.
Proof.
  induction l as [|a l IH]; [reflexivity|]. cbn [verify_relations].
  rewrite (bind_get C a (fun q => do ok <- verify_relation I c q; if ok then verify_relations I c (s_proofs (with_commitment sig e C)) l else Ok false)) by reflexivity.
  apply bind_ext. intros q. apply bind_ext. intros b. destruct b; [exact IH|reflexivity].
Qed.

Lemma contexts_spill c fuel garb pk k : e * n * ds + snd (p_reveal p) * ds + length (p_C p) + k <= T * n * ds ->
  exists D, length D = k /\ forall msg, m_verify_contexts H I c fuel garb pk (with_commitment sig e (p_C p ++ D)) msg = m_verify_contexts H I c fuel garb pk sig msg.
Proof.
  intros L.
  (* the challenges, as far as they can be drawn *)
  set (missing := phase_3_expand H I fuel garb (s_h3 sig)).
  assert (X : exists D, length D = k /\ forall ms, missing = Ok ms ->
    foldM (fun m rep => do proof <- get (s_proofs (with_commitment sig e (p_C p ++ D))) rep; do mi <- get ms rep; m_verify_setup H I (s_salt sig) proof rep mi m) (seq 0 T) (k_new 0%N T n ds, k_new 0%N T n (tape_size I)) =
    foldM (fun m rep => do proof <- get (s_proofs sig) rep; do mi <- get ms rep; m_verify_setup H I (s_salt sig) proof rep mi m) (seq 0 T) (k_new 0%N T n ds, k_new 0%N T n (tape_size I))).
  { destruct missing as [ms|x|x|]; try (exists (repeat 0%N k); split; [apply repeat_length|discriminate]).
    set (F := fun m rep => do proof <- get (s_proofs sig) rep; do mi <- get ms rep; m_verify_setup H I (s_salt sig) proof rep mi m).
    set (F' := fun D m rep => do proof <- get (s_proofs (with_commitment sig e (p_C p ++ D))) rep; do mi <- get ms rep; m_verify_setup H I (s_salt sig) proof rep mi m).
    assert (O : forall D m rep, rep <> e -> F' D m rep = F m rep).
    { intros D m rep N. unfold F', F. rewrite proofs_at. unfold get at 1. rewrite (nth_upd_error _ _ _ _ _ Ep). rewrite (proj2 (Nat.eqb_neq _ _) N). reflexivity. }
    set (st0 := (k_new 0%N T n ds, k_new 0%N T n (tape_size I))).
    assert (Sq : seq 0 T = seq 0 e ++ e :: seq (S e) (T - S e)). { replace T with (e + S (T - S e)) at 1 by lia. rewrite seq_app. cbn [Nat.add]. reflexivity. }
    assert (Pre : forall D, foldM (F' D) (seq 0 e) st0 = foldM F (seq 0 e) st0). { intros D. apply foldM_ext_seq. intros b a J. apply in_seq in J. apply O. lia. }
    assert (Post : forall D s, foldM (F' D) (seq (S e) (T - S e)) s = foldM F (seq (S e) (T - S e)) s). { intros D s. apply foldM_ext_seq. intros b a J. apply in_seq in J. apply O. lia. }
    assert (Sz : forall m, foldM F (seq 0 e) st0 = Ok m -> sized2 I m).
    { intros m E. refine (foldM_keeps (sized2 I) F _ _ _ _ _ E); [|split; apply sized_new]. intros s a s' S' E'. unfold F in E'. apply bind_ok in E' as (q & _ & E'). apply bind_ok in E' as (mi & _ & E'). exact (proj1 (setup_inv H I _ _ _ _ _ _ E' S')). }
    destruct (foldM F (seq 0 e) st0) as [m|x|x|] eqn:E0.
    2-4: exists (repeat 0%N k); (split; [apply repeat_length|]); intros ms' E; assert (ms' = ms) by congruence; subst ms';
         change (foldM (F' (repeat 0%N k)) (seq 0 T) st0 = foldM F (seq 0 T) st0); rewrite Sq, !foldM_split, Pre, E0; reflexivity.
    assert (Y : exists D, length D = k /\ F' D m e = F m e).
    { destruct (get ms e) as [mi|x|x|] eqn:Em.
      - destruct (setup_spill (s_salt sig) p e mi m k (Sz m eq_refl) L) as (D & LD & ED). exists D. split; [exact LD|]. unfold F', F. rewrite proofs_at. unfold get at 1 3. rewrite (nth_upd_error _ _ _ _ _ Ep), Nat.eqb_refl, Ep. cbn [bind]. rewrite Em. exact ED.
      - exists (repeat 0%N k). split; [apply repeat_length|]. unfold F', F. rewrite proofs_at. unfold get at 1 3. rewrite (nth_upd_error _ _ _ _ _ Ep), Nat.eqb_refl, Ep. cbn [bind]. rewrite Em. reflexivity.
      - exists (repeat 0%N k). split; [apply repeat_length|]. unfold F', F. rewrite proofs_at. unfold get at 1 3. rewrite (nth_upd_error _ _ _ _ _ Ep), Nat.eqb_refl, Ep. cbn [bind]. rewrite Em. reflexivity.
      - exists (repeat 0%N k). split; [apply repeat_length|]. unfold F', F. rewrite proofs_at. unfold get at 1 3. rewrite (nth_upd_error _ _ _ _ _ Ep), Nat.eqb_refl, Ep. cbn [bind]. rewrite Em. reflexivity. }
    destruct Y as (D & LD & ED). exists D. split; [exact LD|]. intros ms' E. assert (ms' = ms) by congruence. subst ms'.
    change (foldM (F' D) (seq 0 T) st0 = foldM F (seq 0 T) st0). rewrite Sq, !foldM_split, Pre, E0. cbn [bind foldM]. rewrite ED. destruct (F m e); cbn [bind]; auto. }
  destruct X as (D & LD & ED). exists D. split; [exact LD|]. intros msg. unfold m_verify_contexts. cbn [with_commitment s_salt s_h1 s_h3].
  change (mkSig (s_salt sig) (s_h1 sig) (s_h3 sig) (match nth_error (s_proofs sig) e with Some p0 => upd (s_proofs sig) e (with_C p0 (p_C p ++ D)) | None => s_proofs sig end)) with (with_commitment sig e (p_C p ++ D)) in *.
  set (s' := with_commitment sig e (p_C p ++ D)) in *. change (match nth_error (s_proofs sig) e with Some p0 => upd (s_proofs sig) e (with_C p0 (p_C p ++ D)) | None => s_proofs sig end) with (s_proofs s').
  assert (M : forall B (f : rep_proof -> B), (forall q E, f (with_C q E) = f q) -> map f (s_proofs s') = map f (s_proofs sig)) by (intros B f HF; apply map_field; exact HF).
  rewrite (M _ p_P_delta), (M _ p_sk_delta), (M _ p_t_delta) by reflexivity.
  apply bind_ext. intros pt. apply bind_ext. intros ct. apply bind_ext. intros h2. apply bind_ext. intros rss. apply bind_ext. intros Rs. fold missing.
  destruct missing as [ms|x|x|]; cbn [bind]; try reflexivity. apply bind_ext2; [exact (ED ms eq_refl)|]. intros [coms tapes]. apply bind_ext2.
  { apply foldM_ext_seq. intros b a _. unfold s'. apply (bind_get (p_C p ++ D) a (fun proof => do mi <- get ms a; m_verify_phase1 I pt ct proof mi tapes a b)). reflexivity. }
  intros h. apply bind_ext. intros pre1. apply bind_ext. intros pre2. apply bind_ext2.
  { apply mapM_ext. intros a _. unfold s'. apply (bind_get (p_C p ++ D) a (fun proof => do mi <- get ms a; do rs <- get rss a;
      do s <- k_get_repetition (h_s h) a; do t <- k_get_repetition (h_t h) a; do tp <- k_get_repetition tapes a; verify_phase3 I c rs proof mi s t tp)). reflexivity. }
  intros ph3. apply bind_ext2; [|reflexivity].
  apply foldM_ext_seq. intros [[o cs] ab] a _. unfold s'. apply (bind_get (p_C p ++ D) a (fun proof => do mi <- get ms a; do R <- get Rs a; do p3 <- get ph3 a;
    do (o', cs', ab') <- m_verify_phase5 I c pre1 pre2 R proof mi p3 a ab; Ok (o ++ [o'], cs ++ [cs'], ab'))). reflexivity.
Qed.
Lemma spill fuel garb pk k : e * n * ds + snd (p_reveal p) * ds + length (p_C p) + k <= T * n * ds ->
  exists D, length D = k /\ forall st msg, m_verify H fuel garb st I pk (with_commitment sig e (p_C p ++ D)) msg = m_verify H fuel garb st I pk sig msg.
Proof.
  intros L. destruct (init_extension_field (lambda I)) as [c|x|x|] eqn:Hc.
  2-4: exists (repeat 0%N k); (split; [apply repeat_length|]); intros st msg; unfold m_verify, with_field, st_init; rewrite Hc; try destruct st; reflexivity.
  destruct (contexts_spill c fuel garb pk k L) as (D & LD & ED). exists D. split; [exact LD|]. intros st msg. unfold m_verify, with_field, st_init. rewrite Hc. f_equal.
  unfold m_verify_body. rewrite ED. apply bind_ext. intros [c1 c3]. cbn [with_commitment s_h1 s_h3]. apply bind_ext. intros b. destruct (negb b); [reflexivity|]. apply bind_ext. intros b'. destruct (negb b'); [reflexivity|].
  exact (relations_C c (p_C p ++ D) _).
Qed.
End Spill.
