(** Verification computes the relations of SigSpec. *)
From Coq Require Import Arith NArith List Bool Lia.
From Verif Require Import Prelude FieldModel FieldSpec FieldApi FieldLin PolyModel Instances HashModel TreeModel TreeSpec TreeProofs TreeApi TreeRev AesSpec AesModel AesBase AesApi AesShares BanquetModel ContainerModel ListSum BanquetHash BanquetPure BanquetVerify BanquetCtx BanquetApi ChallengeFacts Serialize SigSpec VerifyTree.
Import ListNotations.

Section Through.
Variables (I : instance) (c : fctx).
Hypothesis HI : init_extension_field (lambda I) = Ok c.
Notation lam := (lambda I).
Notation E := (elt lam).
Lemma through_iff xs pre ys R a : lagr lam c xs pre -> E R -> Forall E xs -> length ys = length xs -> Forall E ys ->
  (through I c xs ys R a <-> a = gsum (length xs) (fun k => gmul c (lag c pre k R) (nth k ys 0%N))).
Proof.
  intros G HR Hx Ly Hy. split.
  - intros (f & Lf & Ef & Ev & <-). rewrite <- (lg_value _ _ _ _ G f R Lf Ef HR). apply gsum_ext. intros k Hk. f_equal. rewrite <- Ev.
    rewrite (nth_indep (map (horner gadd (gmul c) f) xs) 0%N (horner gadd (gmul c) f 0%N)) by (rewrite map_length; exact Hk). rewrite map_nth. reflexivity.
  - intros ->. destruct (lg_interp _ _ _ _ G ys Ly Hy) as (f & _ & Lf & Ef & Ev). exists f. split; [exact Lf|]. split; [exact Ef|]. split; [|apply Ev; exact HR].
    apply (list_eq_nth (map _ xs)); [rewrite map_length; congruence|]. rewrite map_length. intros i Hi d.
    rewrite (nth_indep (map (horner gadd (gmul c) f) xs) d (horner gadd (gmul c) f 0%N)) by (rewrite map_length; exact Hi). rewrite map_nth. rewrite (nth_indep ys d 0%N) by lia.
    rewrite Ev by (apply (E_nth lam c HI); exact Hx). rewrite (gsum_one _ _ i Hi).
    + rewrite (lg_delta _ _ _ _ G i i Hi Hi), Nat.eqb_refl. apply (g_mul_1_l lam c HI). apply (E_nth lam c HI). exact Hy.
    + intros j Hj Hne. rewrite (lg_delta _ _ _ _ G j i Hj Hi). destruct (Nat.eqb_spec i j); [congruence|]. apply (g_mul_0_l lam c HI).
Qed.
End Through.

Section Facts.
Variables (H : oracle) (I : instance) (c : fctx) (nk : nat).
Hypothesis OK : inst_any I c nk.
Let HI := io_field _ _ _ OK.
Notation E := (elt (lambda I)).
Notation ks := (key_size (i_aes I)).
Notation sb := (num_sboxes (i_aes I)).
Notation lam := (lambda I).
Notation n := (num_parties I).
Notation M1 := (m1 I).
Notation M2 := (m2 I).
Notation T := (num_rounds I).
Variables (pre1 pre2 : list (list N)).
Hypothesis G1 : lagr lam c (xs1 I c) pre1.
Hypothesis G2 : lagr lam c (xs2 I c) pre2.

Lemma n2 : 2 <= n. Proof. apply (n_pos I c nk OK). Qed.
Lemma xs1E : Forall E (xs1 I c). Proof. destruct (xs1_ok I c nk OK) as (_ & _ & A). eapply Forall_impl; [|exact A]. intros x [_ X]. exact X. Qed.
Lemma xs2E : Forall E (xs2 I c). Proof. destruct (xs2_ok I c nk OK) as (_ & _ & A). eapply Forall_impl; [|exact A]. intros x [_ X]. exact X. Qed.
Lemma shape_entries pf : proof_shape I pf -> entries_ok n (seed_size I) (fst (p_reveal pf)).
Proof.
  intros S. split; [rewrite (ps_entries _ _ S); pose proof n2; destruct (io_leaves _ _ _ OK); apply ceil_log2_depth; lia|]. intros v Hv. apply (ps_entry _ _ S v Hv).
Qed.
Lemma coef_E h1 e : Forall E (map (fun j => from_bytes (stream H (digest_size I =? 32) h1 ((e * M1 + j) * lam) lam)) (seq 0 M1)).
Proof.
  apply Forall_map, Forall_forall. intros j _. apply (api_bytes _ _ HI); [apply stream_bytes|apply stream_length].
Qed.

(** the evaluations *)
Definition s_pts (rs : list N) (sh tape : bytes) (j : nat) : list N :=
  map (fun k => gmul c (nth j rs 0%N) (lift c (nth (j + M1 * k) sh 0%N))) (seq 0 M2) ++ [tape_elem I tape (ks + sb + j * 2 * lam)].
Definition t_pts (sh tape : bytes) (j : nat) : list N :=
  map (fun k => lift c (nth (j + M1 * k) sh 0%N)) (seq 0 M2) ++ [tape_elem I tape (ks + sb + j * 2 * lam + lam)].
Definition p_pts (rs ds : list N) (p : nat) (tape : bytes) : list N :=
  repeat (if p =? 0 then xsum rs else 0%N) M2 ++
  map (fun k => let v := tape_elem I tape (ks + sb + M1 * 2 * lam + k * lam) in if p =? 0 then gadd v (nth k ds 0%N) else v) (seq 0 (M2 + 1)).
Lemma s_pts_eq rs sh tape j : s_pts rs sh tape j = map (s_pt I c rs sh tape j) (seq 0 (M2 + 1)).
Proof.
  unfold s_pts. rewrite Nat.add_1_r, seq_S, map_app. f_equal.
  - apply map_seq_ext. intros k Hk. unfold s_pt. destruct (Nat.ltb_spec k M2); [reflexivity|lia].
  - cbn [map Nat.add]. unfold s_pt. rewrite Nat.ltb_irrefl. reflexivity.
Qed.
Lemma t_pts_eq sh tape j : t_pts sh tape j = map (t_pt I c sh tape j) (seq 0 (M2 + 1)).
Proof.
  unfold t_pts. rewrite Nat.add_1_r, seq_S, map_app. f_equal.
  - apply map_seq_ext. intros k Hk. unfold t_pt. destruct (Nat.ltb_spec k M2); [reflexivity|lia].
  - cbn [map Nat.add]. unfold t_pt. rewrite Nat.ltb_irrefl. reflexivity.
Qed.
Lemma p_pts_eq rs ds p tape : length rs = M1 -> p_pts rs ds p tape = map (P_adj I rs ds p tape) (seq 0 (2 * M2 + 1)).
Proof.
  intros Lr. unfold p_pts. replace (2 * M2 + 1) with (M2 + (M2 + 1)) by lia. rewrite (seq_app M2 (M2 + 1) 0), map_app. f_equal.
  - rewrite <- (map_repeat_seq _ M2 0). apply map_seq_ext. intros k Hk. unfold P_adj, P_pt. destruct (Nat.ltb_spec k M2); [|lia]. rewrite andb_false_r.
    destruct (p =? 0); [|reflexivity]. unfold sum_r, gsum. rewrite <- (list_map_nth' rs) by exact Lr. reflexivity.
  - cbn [Nat.add]. assert (G : forall q s, map (fun k => let v := tape_elem I tape (ks + sb + M1 * 2 * lam + k * lam) in if p =? 0 then gadd v (nth k ds 0%N) else v) (seq s q) =
      map (P_adj I rs ds p tape) (seq (M2 + s) q)).
    { induction q; intros s; [reflexivity|]. cbn [seq map]. rewrite IHq, Nat.add_succ_r. f_equal. unfold P_adj, P_pt. destruct (Nat.ltb_spec (M2 + s) M2); [lia|].
      cbn [negb]. rewrite andb_true_r. replace (M2 + s - M2) with s by lia. reflexivity. }
    rewrite G, Nat.add_0_r. reflexivity.
Qed.
Lemma through_S rs sh tape j R a : str sb sh -> tape_ok I tape -> j < M1 -> E R ->
  (through I c (get_first_n_field_elements c (M2 + 1)) (s_pts rs sh tape j) R a <-> a = inner c (M2 + 1) (fun k => lag c pre1 k R) (s_pt I c rs sh tape j)).
Proof.
  intros Hs Ht Hj HR. destruct (xs1_ok I c nk OK) as (_ & L1 & _). rewrite s_pts_eq.
  pose proof (through_iff I c HI (xs1 I c) pre1 (map (s_pt I c rs sh tape j) (seq 0 (M2 + 1))) R a G1 HR xs1E) as X. rewrite length_map_seq in X.
  rewrite L1 in X. specialize (X eq_refl). unfold xs1 in X. rewrite X.
  - unfold inner. match goal with |- (a = ?u <-> a = ?w) => assert (u = w) as ->; [|reflexivity] end. apply gsum_ext. intros k Hk. rewrite nth_map_seq by exact Hk. reflexivity.
  - apply Forall_map, Forall_forall. intros k _. apply (s_pt_elt I c nk OK); assumption.
Qed.
Lemma through_T sh tape j R a : str sb sh -> tape_ok I tape -> j < M1 -> E R ->
  (through I c (get_first_n_field_elements c (M2 + 1)) (t_pts sh tape j) R a <-> a = inner c (M2 + 1) (fun k => lag c pre1 k R) (t_pt I c sh tape j)).
Proof.
  intros Hs Ht Hj HR. destruct (xs1_ok I c nk OK) as (_ & L1 & _). rewrite t_pts_eq.
  pose proof (through_iff I c HI (xs1 I c) pre1 (map (t_pt I c sh tape j) (seq 0 (M2 + 1))) R a G1 HR xs1E) as X. rewrite length_map_seq in X.
  rewrite L1 in X. specialize (X eq_refl). unfold xs1 in X. rewrite X.
  - unfold inner. match goal with |- (a = ?u <-> a = ?w) => assert (u = w) as ->; [|reflexivity] end. apply gsum_ext. intros k Hk. rewrite nth_map_seq by exact Hk. reflexivity.
  - apply Forall_map, Forall_forall. intros k _. apply (t_pt_elt I c nk OK); assumption.
Qed.
Lemma through_P rs ds p tape R a : length rs = M1 -> Forall E rs -> Forall E ds -> tape_ok I tape -> E R ->
  (through I c (get_first_n_field_elements c (2 * M2 + 1)) (p_pts rs ds p tape) R a <-> a = inner c (2 * M2 + 1) (fun k => lag c pre2 k R) (P_adj I rs ds p tape)).
Proof.
  intros Lr Hr Hd Ht HR. destruct (xs2_ok I c nk OK) as (_ & L1 & _). rewrite p_pts_eq by exact Lr.
  pose proof (through_iff I c HI (xs2 I c) pre2 (map (P_adj I rs ds p tape) (seq 0 (2 * M2 + 1))) R a G2 HR xs2E) as X. rewrite length_map_seq in X.
  rewrite L1 in X. specialize (X eq_refl). unfold xs2 in X. rewrite X.
  - unfold inner. match goal with |- (a = ?u <-> a = ?w) => assert (u = w) as ->; [|reflexivity] end. apply gsum_ext. intros k Hk. rewrite nth_map_seq by exact Hk. reflexivity.
  - apply Forall_map, Forall_forall. intros k Hk. apply in_seq in Hk. apply (P_adj_elt I c nk OK); try assumption. lia.
Qed.

(** one repetition *)
Section Rep.
Variables (salt h1 pt ct : bytes) (e : nat) (pf : rep_proof) (x : rep_values).
Hypothesis Hpt : str (pt_size I) pt.
Hypothesis Hct : str (pt_size I) ct.
Hypothesis SH : proof_shape I pf.
Definition leafs_of (m : nat) (xn : nat -> bytes) (p : nat) : bytes := if p =? m then zeros (seed_size I) else xn (first_leaf n + p).
Definition vin_of : vin := mkVin (leafs_of (x_hidden x) (x_node x)) (x_coef x) (x_point x) (x_hidden x) pf.

Hypothesis RO : rep_open H I c salt h1 pt ct e pf x.
Hypothesis m_lt : x_hidden x < n.
Let RC := rp_core _ _ _ _ _ _ _ _ _ _ RO.
Hypothesis HR : E (x_point x).
Hypothesis Hidx : snd (p_reveal pf) = x_hidden x.
Notation m := (x_hidden x).
Lemma tree_of : exists t, seed_tree_rev H salt e (p_reveal pf) n = Ok t /\
  forall p, p < n -> get_leaf t p = Ok (if p =? m then None else Some (x_node x (first_leaf n + p))) /\ (p <> m -> length (x_node x (first_leaf n + p)) = seed_size I).
Proof.
  replace (p_reveal pf) with (fst (p_reveal pf), m) by (rewrite <- Hidx; destruct (p_reveal pf); reflexivity).
  apply (rebuilt_leaves H salt e n (seed_size I) m (fst (p_reveal pf)) (io_leaves _ _ _ OK) (io_seed _ _ _ OK) (shape_entries pf SH) m_lt).
  - intros i Hi. apply (rp_reveal _ _ _ _ _ _ _ _ _ _ RO i Hi).
  - apply (rp_child _ _ _ _ _ _ _ _ _ _ RO).
Qed.
Lemma node_len p : p < n -> p <> m -> length (x_node x (first_leaf n + p)) = seed_size I.
Proof. intros Hp Hne. destruct tree_of as (t & _ & A). apply A; assumption. Qed.
Lemma vin_of_ok : vin_ok H I salt e vin_of.
Proof.
  constructor; cbn [vin_of vi_pf vi_rs vi_R vi_m vi_leafs]; auto.
  - rewrite (rc_coef _ _ _ _ _ _ _ _ _ _ RC). apply length_map_seq.
  - rewrite (rc_coef _ _ _ _ _ _ _ _ _ _ RC). apply coef_E.
  - destruct tree_of as (t & Et & A). exists t. split; [exact Et|]. intros p Hp. rewrite (proj1 (A p Hp)). unfold leafs_of. destruct (p =? m); reflexivity.
  - intros p Hp. unfold leafs_of. destruct (Nat.eqb_spec p m); [unfold zeros; apply repeat_length|apply node_len; assumption].
  - unfold leafs_of. rewrite Nat.eqb_refl. reflexivity.
Qed.
Lemma w_com_eq p : p < n -> w_com H I salt e vin_of p = x_com x p.
Proof.
  intros Hp. rewrite (rc_com _ _ _ _ _ _ _ _ _ _ RC p Hp). unfold w_com, vin_of, leafs_of. cbn [vi_pf vi_m vi_leafs]. destruct (p =? m); [reflexivity|].
  unfold com_input. rewrite (app_assoc salt), (app_assoc (salt ++ _)). reflexivity.
Qed.
Lemma w_tape_eq p : p < n -> p <> m -> w_tape H I salt e vin_of p = x_tape x p.
Proof.
  intros Hp Hne. rewrite (rc_tape _ _ _ _ _ _ _ _ _ _ RC p Hp Hne). unfold w_tape, vin_of, leafs_of. cbn [vi_leafs]. destruct (Nat.eqb_spec p m); [congruence|].
  unfold generate_tape. cbn. rewrite node_len by assumption. rewrite (Nat.mul_comm (seed_size I) 2). cbn [Nat.mul]. rewrite <- !app_assoc. reflexivity.
Qed.
Lemma x_tape_ok p : p < n -> p <> m -> tape_ok I (x_tape x p).
Proof. intros Hp Hne. rewrite <- w_tape_eq by assumption. apply w_tape_ok. Qed.
Lemma v_keys_eq p : p < n -> p <> m -> v_keys I (p_sk_delta pf) (w_tape H I salt e vin_of) p = x_key x p.
Proof. intros Hp Hne. rewrite (rc_key _ _ _ _ _ _ _ _ _ _ RC p Hp Hne). unfold v_keys, fixed, t_key. rewrite w_tape_eq by assumption. reflexivity. Qed.
Lemma v_ts_eq p : p < n -> p <> m -> v_ts I (p_t_delta pf) (w_tape H I salt e vin_of) p = x_inv x p.
Proof. intros Hp Hne. rewrite (rc_inv _ _ _ _ _ _ _ _ _ _ RC p Hp Hne). unfold v_ts, fixed, t_out. rewrite w_tape_eq by assumption. reflexivity. Qed.
Lemma v_out_eq p : p < n -> p <> m -> v_out I nk pt (p_sk_delta pf) (p_t_delta pf) (w_tape H I salt e vin_of) p = (x_out x p, x_in x p).
Proof.
  intros Hp Hne. destruct (rc_aes _ _ _ _ _ _ _ _ _ _ RC) as (outs & A & B). specialize (B p Hp Hne).
  rewrite (aes_shares_ok I c nk OK pt (x_key x) (x_inv x)) in A.
  - injection A as <-. rewrite nth_error_map in B. rewrite (nth_error_nth' (seq 0 n) 0) in B by (rewrite seq_length; exact Hp). cbn [option_map] in B. rewrite seq_nth in B by exact Hp.
    injection B as B. cbn [Nat.add] in B. rewrite <- B. unfold v_out, aes_out. rewrite v_keys_eq, v_ts_eq by assumption. reflexivity.
  - rewrite <- (io_pt _ _ _ OK). exact Hpt.
  - intros q Hq. apply (rc_sizes _ _ _ _ _ _ _ _ _ _ RC q Hq).
  - intros q Hq. apply (rc_sizes _ _ _ _ _ _ _ _ _ _ RC q Hq).
Qed.
Lemma w_bcast_eq p : p < n -> w_bcast H I nk salt pt ct e vin_of p = x_out x p.
Proof.
  intros Hp. unfold w_bcast, v_bcast. cbn [vin_of vi_pf vi_m]. destruct (Nat.eqb_spec p m) as [->|Hne].
  - rewrite <- (bsum_recover (pt_size I) n m (x_out x) Hp) by (intros q Hq; apply (rc_sizes _ _ _ _ _ _ _ _ _ _ RC q Hq)).
    unfold bsum. rewrite (rc_cipher _ _ _ _ _ _ _ _ _ _ RC). f_equal. apply bothers_ext. intros q Hq Hqm. fold vin_of. rewrite v_out_eq by assumption. reflexivity.
  - fold vin_of. rewrite v_out_eq by assumption. reflexivity.
Qed.
Lemma w_s_eq p : p < n -> p <> m -> w_s H I nk salt pt e vin_of p = x_in x p.
Proof. intros Hp Hne. unfold w_s. cbn [vi_pf vin_of]. fold vin_of. rewrite v_out_eq by assumption. reflexivity. Qed.
Lemma w_t_eq p : p < n -> p <> m -> w_t H I salt e vin_of p = x_inv x p.
Proof. intros Hp Hne. unfold w_t. cbn [vi_pf vin_of]. fold vin_of. apply v_ts_eq; assumption. Qed.
Lemma known_a p j : p < n -> p <> m -> j < M1 ->
  inner c (M2 + 1) (fun k => lag c pre1 k (x_point x)) (v_s I c (x_coef x) (w_s H I nk salt pt e vin_of) (w_tape H I salt e vin_of) p j) = x_S x p j.
Proof.
  intros Hp Hne Hj. symmetry. unfold v_s. rewrite w_s_eq, w_tape_eq by assumption. apply through_S; auto.
  - apply (rc_sizes _ _ _ _ _ _ _ _ _ _ RC p Hp).
  - apply x_tape_ok; assumption.
  - apply (rc_S _ _ _ _ _ _ _ _ _ _ RC p j Hp Hne Hj).
Qed.
Lemma known_b p j : p < n -> p <> m -> j < M1 ->
  inner c (M2 + 1) (fun k => lag c pre1 k (x_point x)) (v_t I c (w_t H I salt e vin_of) (w_tape H I salt e vin_of) p j) = x_T x p j.
Proof.
  intros Hp Hne Hj. symmetry. unfold v_t. rewrite w_t_eq, w_tape_eq by assumption. apply through_T; auto.
  - apply (rc_sizes _ _ _ _ _ _ _ _ _ _ RC p Hp).
  - apply x_tape_ok; assumption.
  - apply (rc_T _ _ _ _ _ _ _ _ _ _ RC p j Hp Hne Hj).
Qed.
Lemma known_c p : p < n -> p <> m ->
  inner c (2 * M2 + 1) (fun k => lag c pre2 k (x_point x)) (P_adj I (x_coef x) (p_P_delta pf) p (w_tape H I salt e vin_of p)) = x_P x p.
Proof.
  intros Hp Hne. symmetry. rewrite w_tape_eq by assumption. apply through_P; auto.
  - rewrite (rc_coef _ _ _ _ _ _ _ _ _ _ RC). apply length_map_seq.
  - rewrite (rc_coef _ _ _ _ _ _ _ _ _ _ RC). apply coef_E.
  - apply (ps_P _ _ SH).
  - apply x_tape_ok; assumption.
  - apply (rc_P _ _ _ _ _ _ _ _ _ _ RC p Hp Hne).
Qed.
Lemma w_view_a p j : p < n -> j < M1 -> nth j (v_a (w_view H I c nk pre1 pre2 salt pt e vin_of p)) 0%N = x_S x p j.
Proof.
  intros Hp Hj. unfold w_view, v_views. cbn [vi_m vi_R vi_rs vi_pf vin_of]. fold vin_of. destruct (Nat.eqb_spec p m) as [->|Hne].
  - unfold v_a at 1. cbn [fst snd]. rewrite nth_map_seq by exact Hj. unfold w_open, v_a. cbn [fst snd vi_pf vin_of].
    rewrite <- (rc_sum_S _ _ _ _ _ _ _ _ _ _ RC j Hj). rewrite <- (gsum_recover n m (fun q => x_S x q j) m_lt). f_equal. apply gothers_ext.
    intros q Hq Hqm. apply known_a; assumption.
  - unfold known, view_of, v_a. cbn [fst snd]. rewrite nth_map_seq by exact Hj. apply known_a; assumption.
Qed.
Lemma w_view_b p j : p < n -> j < M1 -> nth j (v_b (w_view H I c nk pre1 pre2 salt pt e vin_of p)) 0%N = x_T x p j.
Proof.
  intros Hp Hj. unfold w_view, v_views. cbn [vi_m vi_R vi_rs vi_pf vin_of]. fold vin_of. destruct (Nat.eqb_spec p m) as [->|Hne].
  - unfold v_b at 1. cbn [fst snd]. rewrite nth_map_seq by exact Hj. unfold w_open, v_b. cbn [fst snd vi_pf vin_of].
    rewrite <- (rc_sum_T _ _ _ _ _ _ _ _ _ _ RC j Hj). rewrite <- (gsum_recover n m (fun q => x_T x q j) m_lt). f_equal. apply gothers_ext.
    intros q Hq Hqm. apply known_b; assumption.
  - unfold known, view_of, v_b. cbn [fst snd]. rewrite nth_map_seq by exact Hj. apply known_b; assumption.
Qed.
Lemma w_view_c p : p < n -> v_c (w_view H I c nk pre1 pre2 salt pt e vin_of p) = x_P x p.
Proof.
  intros Hp. unfold w_view, v_views. cbn [vi_m vi_R vi_rs vi_pf vin_of]. fold vin_of. destruct (Nat.eqb_spec p m) as [->|Hne].
  - unfold v_c, w_open. cbn [fst snd vi_pf vin_of].
    rewrite <- (rc_sum_P _ _ _ _ _ _ _ _ _ _ RC). rewrite <- (gsum_recover n m (x_P x) m_lt). f_equal. apply gothers_ext.
    intros q Hq Hqm. apply known_c; assumption.
  - unfold known, view_of, v_c. cbn [fst snd]. apply known_c; assumption.
Qed.
End Rep.

(** every repetition has such values *)
Lemma rep_exists salt h1 pt ct e pf R m : m < n -> str (pt_size I) pt -> str (pt_size I) ct -> proof_shape I pf -> E R ->
  exists x, rep_open H I c salt h1 pt ct e pf x /\ x_point x = R /\ x_hidden x = m.
Proof.
  intros Hm Hpt Hct SH HR.
  destruct (nodes_exist H salt e n (seed_size I) m (fst (p_reveal pf)) (io_leaves _ _ _ OK) (io_seed _ _ _ OK) Hm) as (xn & N1 & N2).
  destruct (rebuilt_leaves H salt e n (seed_size I) m (fst (p_reveal pf)) (io_leaves _ _ _ OK) (io_seed _ _ _ OK) (shape_entries pf SH) Hm xn N1 N2) as (tr & _ & HT).
  set (rs := map (fun j => from_bytes (stream H (digest_size I =? 32) h1 ((e * M1 + j) * lam) lam)) (seq 0 M1)).
  assert (Lr : length rs = M1) by apply length_map_seq. assert (Er : Forall E rs) by apply coef_E.
  set (tape := fun p => generate_tape H I salt e p (leafs_of m xn p)).
  assert (TO : forall p, tape_ok I (tape p)) by (intros p; unfold tape; apply tape_str).
  set (kd := p_sk_delta pf). set (td := p_t_delta pf). assert (Hkd : str ks kd) by apply SH. assert (Htd : str sb td) by apply SH.
  set (ins := fun p => snd (v_out I nk pt kd td tape p)). set (ts := v_ts I td tape).
  set (l1 := fun k => lag c pre1 k R). set (l2 := fun k => lag c pre2 k R).
  set (vw := v_views I c l1 l2 rs (p_P_delta pf) ins ts tape m ((p_S_at_R pf, p_T_at_R pf), p_P_at_R pf)).
  assert (VO : forall p, str (pt_size I) (fst (v_out I nk pt kd td tape p)) /\ str sb (snd (v_out I nk pt kd td tape p))) by (intros p; apply (v_out_str I c nk OK); auto).
  exists (mkRV rs R m xn (fun p => if p =? m then p_C pf else stream H (digest_size I =? 32) (com_input salt e p (xn (first_leaf n + p))) 0 (digest_size I))
    tape (v_keys I kd tape) ts ins (v_bcast I nk pt ct kd td m tape) (fun p j => nth j (v_a (vw p)) 0%N) (fun p j => nth j (v_b (vw p)) 0%N) (fun p => v_c (vw p))).
  split; [|split; reflexivity]. constructor; [| |constructor]; cbn [x_coef x_point x_hidden x_node x_com x_tape x_key x_inv x_in x_out x_S x_T x_P]; auto.
  - intros p Hp Hne. unfold tape, leafs_of. destruct (Nat.eqb_spec p m); [congruence|]. unfold generate_tape. cbn. rewrite (proj2 (HT p Hp)) by exact Hne.
    rewrite (Nat.mul_comm (seed_size I) 2). cbn [Nat.mul]. rewrite <- !app_assoc. reflexivity.
  - intros p Hp. split; [apply v_keys_str; auto|]. split; [apply v_ts_str; auto|]. split; [|apply VO]. unfold v_bcast. destruct (p =? m); [|apply VO].
    apply str_xorl; [exact Hct|]. apply bsum_str. intros q _. destruct (q =? m); [|apply VO]. split; [unfold zeros; apply repeat_length|apply is_bytes_zeros].
  - exists (map (v_out I nk pt kd td tape) (seq 0 n)). split.
    + apply (shares_ok I c nk OK pt kd td tape Hpt Hkd Htd). intros; apply TO.
    + intros p Hp Hne. rewrite nth_error_map, (nth_error_nth' (seq 0 n) 0) by (rewrite seq_length; exact Hp). cbn [option_map]. rewrite seq_nth by exact Hp. cbn [Nat.add].
      unfold v_bcast, ins. destruct (Nat.eqb_spec p m); [congruence|]. rewrite <- surjective_pairing. reflexivity.
  - apply (v_bcast_sum I c nk OK); auto. apply Hct.
  - intros p j Hp Hne Hj. apply (through_S rs (ins p) (tape p) j R); auto; [apply VO|]. unfold vw, v_views. destruct (Nat.eqb_spec p m); [congruence|].
    unfold known, view_of, v_a. cbn [fst snd]. rewrite nth_map_seq by exact Hj. reflexivity.
  - intros p j Hp Hne Hj. apply (through_T (ts p) (tape p) j R); auto; [apply v_ts_str; auto|]. unfold vw, v_views. destruct (Nat.eqb_spec p m); [congruence|].
    unfold known, view_of, v_b. cbn [fst snd]. rewrite nth_map_seq by exact Hj. reflexivity.
  - intros p Hp Hne. apply (through_P rs (p_P_delta pf) p (tape p) R); auto; [apply SH|]. unfold vw, v_views. destruct (Nat.eqb_spec p m); [congruence|]. reflexivity.
  - exact (proj1 (v_views_sum I c l1 l2 rs (p_P_delta pf) ins ts tape m ((p_S_at_R pf, p_T_at_R pf), p_P_at_R pf) Hm)).
  - exact (proj1 (proj2 (v_views_sum I c l1 l2 rs (p_P_delta pf) ins ts tape m ((p_S_at_R pf, p_T_at_R pf), p_P_at_R pf) Hm))).
  - exact (proj2 (proj2 (v_views_sum I c l1 l2 rs (p_P_delta pf) ins ts tape m ((p_S_at_R pf, p_T_at_R pf), p_P_at_R pf) Hm))).
Qed.
End Facts.
