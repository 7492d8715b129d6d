(** What two accepted signatures with the same challenges have in common (C40). *)
From Coq Require Import Arith NArith List Bool Lia.
From Verif Require Import Prelude FieldModel FieldSpec FieldApi FieldLin PolyModel Instances HashModel TreeModel TreeSpec TreeProofs TreeExpand TreeApi TreeRev AesSpec AesModel AesBase AesApi AesShares BanquetModel ContainerModel ListSum BanquetHash BanquetPure BanquetPoly BanquetVerify BanquetCtx BanquetRun BanquetApi ChallengeFacts TapeFacts HashFacts Serialize SerialFacts ShareFacts SigSpec VerifyTree VerifyFacts VerifyOutcome AcceptFacts FreeSpec.
Import ListNotations.

Lemma forall_or (P : nat -> Prop) (C : Prop) m : (forall e, e < m -> P e \/ C) -> (forall e, e < m -> P e) \/ C.
Proof.
  induction m; intros Hm; [left; lia|]. destruct IHm as [A|A]; [intros; apply Hm; lia| |right; exact A].
  destruct (Hm m ltac:(lia)) as [B|B]; [left|right; exact B]. intros e He. destruct (Nat.eq_dec e m) as [->|Ne]; [exact B|apply A; lia].
Qed.
Lemma concat_inj {A} (f g : nat -> list A) k m : (forall i, i < m -> length (f i) = k) -> (forall i, i < m -> length (g i) = k) ->
  concat (map f (seq 0 m)) = concat (map g (seq 0 m)) -> forall i, i < m -> f i = g i.
Proof.
  induction m; intros Hf Hg Eq i Hi; [lia|]. rewrite !seq_S, !map_app, !concat_app in Eq. cbn [plus map concat] in Eq. rewrite !app_nil_r in Eq.
  apply app_inv_len_r in Eq; [|rewrite Hf, Hg by lia; reflexivity]. destruct Eq as [E1 E2]. destruct (Nat.eq_dec i m) as [->|Ne]; [exact E2|].
  apply IHm; [intros; apply Hf; lia|intros; apply Hg; lia|exact E1|lia].
Qed.
Lemma anc_dec a k : {ancestor a k} + {~ ancestor a k}.
Proof.
  destruct (Nat.eq_dec a 0) as [->|Z]; [left; apply ancestor_root|]. destruct (in_dec Nat.eq_dec a (path k)) as [J|J].
  - left. apply path_in in J. apply J.
  - right. intros A. apply J. apply path_in. auto.
Qed.
Lemma parent_cases k : k <> 0 -> k = 2 * parent k + 1 /\ Nat.even k = false \/ k = 2 * parent k + 2 /\ Nat.even k = true.
Proof.
  intros Hk. unfold parent. destruct (Nat.even k) eqn:Ev.
  - right. split; [|reflexivity]. apply Nat.even_spec in Ev. destruct Ev as [q ->]. replace (2 * q - 1) with (1 + (q - 1) * 2) by lia. rewrite Nat.div_add by lia. change (1 / 2) with 0. lia.
  - left. split; [|reflexivity]. assert (O : Nat.odd k = true) by (unfold Nat.odd; rewrite Ev; reflexivity). apply Nat.odd_spec in O. destruct O as [q ->].
    replace (2 * q + 1 - 1) with (q * 2) by lia. rewrite Nat.div_mul by lia. lia.
Qed.
Lemma parent_left k : parent (2 * k + 1) = k /\ is_right (2 * k + 1) = false.
Proof. unfold parent, is_right. split; [replace (2 * k + 1 - 1) with (k * 2) by lia; apply Nat.div_mul; lia|]. replace (2 * k + 1) with (S (2 * k)) by lia. rewrite Nat.even_succ. unfold Nat.odd. rewrite Nat.even_mul. reflexivity. Qed.
Lemma parent_right k : parent (2 * k + 2) = k /\ is_right (2 * k + 2) = true.
Proof. unfold parent, is_right. split; [replace (2 * k + 2 - 1) with (1 + k * 2) by lia; rewrite Nat.div_add by lia; reflexivity|]. replace (2 * k + 2) with (2 * (k + 1)) by lia. rewrite Nat.even_mul. reflexivity. Qed.
Lemma sibling_of a b : a <> 0 -> b <> 0 -> parent a = parent b -> a <> b -> a = sibling b.
Proof. intros Ha Hb E Ne. unfold sibling. destruct (parent_cases a Ha) as [[A A']|[A A']], (parent_cases b Hb) as [[B B']|[B B']]; rewrite B'; lia. Qed.

Section Nodes.
Variables (n k0 m ss : nat).
Hypothesis HL : leaves_ok n.
Hypothesis HP : n = 2 ^ k0.
Hypothesis Hm : m < n.
Notation leaf := (first_leaf n + m).
Lemma first_leaf_pow : first_leaf n = n - 1.
Proof. unfold first_leaf. rewrite (depth_pow n k0 HP), <- HP. reflexivity. Qed.
Lemma shut_sibling i : i < depth n -> let k := sibling (Nat.iter i parent leaf) in ~ ancestor k leaf /\ 0 < k < 2 * n - 1.
Proof.
  intros Hi k. set (a := Nat.iter i parent leaf) in *. assert (Za : a <> 0) by (apply iter_nz; rewrite (leaf_len n m HL Hm); exact Hi).
  assert (Aa : ancestor a leaf) by (apply iter_anc; rewrite (leaf_len n m HL Hm); lia). destruct (sib_parent a Za) as (S0 & S1 & S2).
  split; [|split; [unfold k; lia|]].
  - intros Y. apply S1. exact (ancestor_siblings _ _ _ S0 Za S2 Y Aa).
  - pose proof (ancestor_le _ _ Aa) as Le. rewrite first_leaf_pow in Le. destruct HL as [H2 _].
    destruct (parent_cases a Za) as [[A A']|[A A']], (parent_cases k S0) as [[B B']|[B B']]; unfold k in *; rewrite S2 in B; try lia.
Qed.
Lemma shut_cases k : 0 < k < 2 * n - 1 -> ~ ancestor k leaf -> ancestor (parent k) leaf -> exists i, i < depth n /\ k = sibling (Nat.iter i parent leaf).
Proof.
  intros Hk A P. assert (Np : parent k <> leaf). { rewrite first_leaf_pow. destruct (parent_cases k ltac:(lia)) as [[B _]|[B _]]; lia. }
  destruct (ancestor_child _ _ P Np) as (a & C0 & C1 & C2). assert (J : In a (path leaf)) by (apply path_in; auto).
  apply (In_nth _ _ 0) in J. destruct J as (i & Hi & Ei). pose proof Hi as Hi'. rewrite (leaf_len n m HL Hm) in Hi'. exists i. split; [exact Hi'|].
  rewrite iter_path in Ei by exact Hi. apply sibling_of; [lia|rewrite Ei; exact C0|rewrite Ei; symmetry; exact C1|rewrite Ei; intros ->; exact (A C2)].
Qed.
Variables (H : oracle) (salt : bytes) (rep : nat).
Section One.
Variables (entries : list bytes) (xn : nat -> bytes).
Hypothesis EL : forall i, i < depth n -> length (nth i entries []) = ss.
Hypothesis R1 : forall i, i < depth n -> xn (sibling (Nat.iter i parent leaf)) = nth i entries [].
Hypothesis R2 : forall k, 0 < k < 2 * n - 1 -> ~ ancestor (parent k) leaf -> xn k = child_seed H salt rep (xn (parent k)) (parent k) (is_right k).
Lemma node_length k : k < 2 * n - 1 -> ~ ancestor k leaf -> length (xn k) = ss.
Proof.
  induction k as [k IH] using lt_wf_ind. intros Hk A. assert (Z : k <> 0) by (intros ->; apply A, ancestor_root).
  destruct (anc_dec (parent k) leaf) as [P|P].
  - destruct (shut_cases k ltac:(lia) A P) as (i & Hi & ->). rewrite R1 by exact Hi. apply EL. exact Hi.
  - rewrite R2 by (assumption || lia). unfold child_seed. rewrite stream_length. pose proof (parent_lt k Z). apply IH; [exact H0|lia|exact P].
Qed.
Lemma node_expand k : k < n - 1 -> ~ ancestor k leaf ->
  stream H (2 * ss =? 32) ([1%N] ++ xn k ++ salt ++ le16 rep ++ le16 k) 0 (2 * ss) = xn (2 * k + 1) ++ xn (2 * k + 2).
Proof.
  intros Hk A. pose proof (node_length k ltac:(lia) A) as L. destruct (parent_left k) as [P1 P2]. destruct (parent_right k) as [Q1 Q2].
  rewrite (R2 (2 * k + 1)), (R2 (2 * k + 2)); rewrite ?P1, ?P2, ?Q1, ?Q2; try lia; try exact A. unfold child_seed. rewrite L.
  replace (2 * ss) with (ss + ss) at 2 by lia. rewrite stream_app. reflexivity.
Qed.
End One.
Variables (es es' : list bytes) (xn xn' : nat -> bytes) (C : Prop).
Hypothesis EL : forall i, i < depth n -> length (nth i es []) = ss.
Hypothesis R1 : forall i, i < depth n -> xn (sibling (Nat.iter i parent leaf)) = nth i es [].
Hypothesis R2 : forall k, 0 < k < 2 * n - 1 -> ~ ancestor (parent k) leaf -> xn k = child_seed H salt rep (xn (parent k)) (parent k) (is_right k).
Hypothesis EL' : forall i, i < depth n -> length (nth i es' []) = ss.
Hypothesis R1' : forall i, i < depth n -> xn' (sibling (Nat.iter i parent leaf)) = nth i es' [].
Hypothesis R2' : forall k, 0 < k < 2 * n - 1 -> ~ ancestor (parent k) leaf -> xn' k = child_seed H salt rep (xn' (parent k)) (parent k) (is_right k).
Hypothesis HC : forall k, k < n - 1 -> ~ ancestor k leaf ->
  collides (fun i => stream H (2 * ss =? 32) i 0 (2 * ss)) (tree_input salt rep k (xn k)) (tree_input salt rep k (xn' k)) -> C.
Hypothesis HLeaf : forall p, p < n -> p <> m -> xn (first_leaf n + p) = xn' (first_leaf n + p) \/ C.
Lemma nodes_equal : forall j k, k + j = 2 * n - 2 -> ~ ancestor k leaf -> xn k = xn' k \/ C.
Proof.
  induction j as [j IH] using lt_wf_ind. intros k Hk A. destruct (le_lt_dec (n - 1) k) as [Lf|Lf].
  - destruct HL as [H2 _]. specialize (HLeaf (k - (n - 1)) ltac:(lia)). rewrite first_leaf_pow in HLeaf. replace (n - 1 + (k - (n - 1))) with k in HLeaf by lia. apply HLeaf.
    intros Q. apply A. rewrite first_leaf_pow. replace (n - 1 + m) with k by lia. constructor.
  - assert (A1 : ~ ancestor (2 * k + 1) leaf) by (intros Y; apply A; rewrite <- (proj1 (parent_left k)); apply ancestor_parent; [lia|exact Y]).
    assert (A2 : ~ ancestor (2 * k + 2) leaf) by (intros Y; apply A; rewrite <- (proj1 (parent_right k)); apply ancestor_parent; [lia|exact Y]).
    destruct (IH (2 * n - 2 - (2 * k + 1)) ltac:(lia) (2 * k + 1) ltac:(lia) A1) as [E1|E1]; [|right; exact E1].
    destruct (IH (2 * n - 2 - (2 * k + 2)) ltac:(lia) (2 * k + 2) ltac:(lia) A2) as [E2|E2]; [|right; exact E2].
    pose proof (node_expand es xn EL R1 R2 k Lf A) as X. pose proof (node_expand es' xn' EL' R1' R2' k Lf A) as X'. rewrite <- E1, <- E2, <- X in X'.
    destruct (list_eq_dec N.eq_dec (tree_input salt rep k (xn k)) (tree_input salt rep k (xn' k))) as [Q|Q].
    + left. unfold tree_input in Q. apply app_inv_head in Q. apply app_inv_len in Q; [apply Q|].
      rewrite (node_length es xn EL R1 R2 k), (node_length es' xn' EL' R1' R2' k) by (assumption || lia). reflexivity.
    + right. apply (HC k Lf A). split; [exact Q|]. symmetry. exact X'.
Qed.
Lemma entries_equal : (forall i, i < depth n -> nth i es [] = nth i es' []) \/ C.
Proof.
  apply forall_or. intros i Hi. destruct (shut_sibling i Hi) as [A B]. rewrite <- R1, <- R1' by exact Hi.
  apply (nodes_equal (2 * n - 2 - sibling (Nat.iter i parent leaf))); [lia|exact A].
Qed.
End Nodes.

(** the last correction of P *)
Section Last.
Variables (I : instance) (c : fctx) (nk : nat).
Hypothesis OK : inst_any I c nk.
Let HI := io_field _ _ _ OK.
Notation lam := (lambda I).
Notation E := (elt lam).
Notation points k := (get_first_n_field_elements c k).
Lemma mul_eq_0 a b : E a -> E b -> a <> 0%N -> gmul c a b = 0%N -> b = 0%N.
Proof.
  intros Ha Hb Na Z. destruct (api_inverse lam c HI BinNums.Z0 a Ha) as (i & _ & _ & Hi & _ & Q). rewrite <- (g_mul_1_l lam c HI b Hb), <- (Q Na), (g_mul_comm c a i).
  rewrite (g_assoc lam c HI) by assumption. rewrite Z. apply (g_mul_0_r lam c HI).
Qed.
Lemma points_nth j k : j < k -> nth j (points (k + 1)) 0%N = nth j (points k) 0%N.
Proof.
  rewrite Nat.add_1_r. unfold get_first_n_field_elements. generalize 2%N as g. revert j. induction k as [|k IH]; intros j g Hj; [lia|].
  change (first_elements_loop c (S (S k)) g) with (g :: first_elements_loop c (S k) (gmul c g 2)). change (first_elements_loop c (S k) g) with (g :: first_elements_loop c k (gmul c g 2)).
  destruct j; [reflexivity|]. cbn [nth]. apply IH. lia.
Qed.
Variables (ys ys' : list N) (R a : N).
Notation m := (2 * m2 I).
Hypothesis HR : E R.
Hypothesis L : length ys = m + 1.
Hypothesis L' : length ys' = m + 1.
Hypothesis Y : Forall E ys.
Hypothesis Y' : Forall E ys'.
Hypothesis SAME : forall k, k < m -> nth k ys 0%N = nth k ys' 0%N.
Lemma last_fixed : through I c (points (m + 1)) ys R a -> through I c (points (m + 1)) ys' R a -> ~ In R (points m) -> nth m ys 0%N = nth m ys' 0%N.
Proof.
  intros T1 T2 NI. destruct (lagr2 I c nk OK) as [pre G]. destruct (xs2_ok I c nk OK) as (ND & LX & FX). fold (xs2 I c) in T1, T2.
  assert (FE : Forall E (xs2 I c)) by (eapply Forall_impl; [|exact FX]; intros x [_ X]; exact X).
  apply (through_iff I c HI (xs2 I c) pre ys R a G HR FE) in T1; [|lia|exact Y]. apply (through_iff I c HI (xs2 I c) pre ys' R a G HR FE) in T2; [|lia|exact Y'].
  rewrite LX, Nat.add_1_r, gsum_S in T1, T2. 
  assert (Q : gsum m (fun k => gmul c (lag c pre k R) (nth k ys 0%N)) = gsum m (fun k => gmul c (lag c pre k R) (nth k ys' 0%N))) by (apply gsum_ext; intros k Hk; rewrite SAME by exact Hk; reflexivity).
  rewrite Q, T2 in T1. clear Q T2. assert (W : gmul c (lag c pre m R) (nth m ys 0%N) = gmul c (lag c pre m R) (nth m ys' 0%N)).
  { apply (f_equal (N.lxor (gsum m (fun k => gmul c (lag c pre k R) (nth k ys' 0%N))))) in T1. rewrite <- !N.lxor_assoc, N.lxor_nilpotent, !N.lxor_0_l in T1. symmetry. exact T1. }
  assert (E1 : E (nth m ys 0%N)) by (apply (E_nth lam c HI); exact Y). assert (E2 : E (nth m ys' 0%N)) by (apply (E_nth lam c HI); exact Y').
  apply N.lxor_eq. apply (mul_eq_0 (lag c pre m R)).
  - apply (lg_elt _ _ _ _ G). exact HR.
  - apply (E_xor lam c HI); assumption.
  - apply (lg_neq0 _ _ _ _ G); [lia|exact HR|]. intros j Hj Nj ->. apply NI. unfold xs2. rewrite points_nth by lia. apply nth_In. destruct (api_points lam c HI m) as (_ & -> & _); [apply (points_ok I c nk OK); lia|lia].
  - change (N.lxor ?u ?v) with (gadd u v). rewrite (g_distr_r lam c HI) by (try assumption; apply (lg_elt _ _ _ _ G); exact HR). rewrite W. apply N.lxor_nilpotent.
Qed.
Lemma last_free : In R (points m) -> through I c (points (m + 1)) ys R a -> through I c (points (m + 1)) ys' R a.
Proof.
  intros J T1. destruct (lagr2 I c nk OK) as [pre G]. destruct (xs2_ok I c nk OK) as (ND & LX & FX). fold (xs2 I c) in T1 |- *.
  assert (FE : Forall E (xs2 I c)) by (eapply Forall_impl; [|exact FX]; intros x [_ X]; exact X).
  apply (through_iff I c HI (xs2 I c) pre ys R a G HR FE) in T1; [|lia|exact Y]. apply (through_iff I c HI (xs2 I c) pre ys' R a G HR FE); [lia|exact Y'|].
  rewrite T1. apply gsum_ext. rewrite LX. intros k Hk. destruct (Nat.eq_dec k m) as [->|Ne]; [|rewrite SAME by lia; reflexivity].
  apply (In_nth _ _ 0%N) in J. destruct J as (j & Hj & ER). destruct (api_points lam c HI m) as (_ & LP & _); [apply (points_ok I c nk OK); lia|]. rewrite LP in Hj.
  rewrite <- points_nth in ER by exact Hj. fold (xs2 I c) in ER. rewrite <- ER, (lg_delta _ _ _ _ G m j) by lia. destruct (Nat.eqb_spec j m); [lia|]. rewrite !(g_mul_0_l lam c HI). reflexivity.
Qed.
End Last.

Section Two.
Variables (H : oracle) (I : instance) (c : fctx) (nk k0 : nat).
Hypothesis OK : inst_any I c nk.
Hypothesis HP : num_parties I = 2 ^ k0.
Hypothesis Hk8 : k0 <= 8.
Let HI := io_field _ _ _ OK.
Notation lam := (lambda I).
Notation E := (elt lam).
Notation n := (num_parties I).
Notation T := (num_rounds I).
Notation M1 := (m1 I).
Notation M2 := (m2 I).
Variables (sig sig' : signature) (pk msg : bytes) (X X' : nat -> rep_values).
Hypothesis SS : sig_shape I sig.
Hypothesis SS' : sig_shape I sig'.
Hypothesis TR : is_transcript H I c pk sig X.
Hypothesis TR' : is_transcript H I c pk sig' X'.
Hypothesis AC : accepts H I c pk msg sig X.
Hypothesis AC' : accepts H I c pk msg sig' X'.
Hypothesis Eh1 : s_h1 sig = s_h1 sig'.
Hypothesis Eh3 : s_h3 sig = s_h3 sig'.
Hypothesis IDX : forall e, e < T -> snd (p_reveal (pf_of sig e)) = x_hidden (X e).
Hypothesis IDX' : forall e, e < T -> snd (p_reveal (pf_of sig' e)) = x_hidden (X' e).
Notation C := (collision_between H I pk msg sig sig' X X').
Let D := list_eq_dec N.eq_dec.
Lemma tb_inj a b : E a -> E b -> to_bytes lam a = to_bytes lam b -> a = b.
Proof. intros A B Q. destruct (api_bytes lam c HI) as [Z _]. rewrite <- (proj2 (proj2 (Z a A))), <- (proj2 (proj2 (Z b B))), Q. reflexivity. Qed.
Lemma hidden_eq e : e < T -> x_hidden (X e) = hidden_of H I sig e /\ x_hidden (X' e) = hidden_of H I sig e.
Proof.
  intros He. rewrite (ro_hidden _ _ _ _ _ _ _ _ _ _ _ (tr_reps _ _ _ _ _ _ TR e He)), (ro_hidden _ _ _ _ _ _ _ _ _ _ _ (tr_reps _ _ _ _ _ _ TR' e He)), <- Eh3. split; reflexivity.
Qed.
Lemma step1 : C \/ (s_salt sig = s_salt sig' /\ forall e, e < T -> (forall p, p < n -> x_com (X e) p = x_com (X' e) p) /\
  p_sk_delta (pf_of sig e) = p_sk_delta (pf_of sig' e) /\ p_t_delta (pf_of sig e) = p_t_delta (pf_of sig' e)).
Proof.
  destruct (D (h1_input I (s_salt sig) pk msg (pf_of sig) X) (h1_input I (s_salt sig') pk msg (pf_of sig') X')) as [Q|Q].
  2:{ left. left. split; [exact Q|]. rewrite (ac_h1 _ _ _ _ _ _ _ AC), (ac_h1 _ _ _ _ _ _ _ AC'). exact Eh1. }
  right. unfold h1_input in Q. apply app_inv_head in Q. apply app_inv_len in Q; [|rewrite (proj1 (ss_salt _ _ SS)), (proj1 (ss_salt _ _ SS')); reflexivity]. destruct Q as [ES Q]. split; [exact ES|].
  apply app_inv_head in Q. apply app_inv_head in Q. intros e He.
  pose proof (concat_inj _ _ _ _ (fun i Hi => row1_len H I c pk sig X i SS TR Hi) (fun i Hi => row1_len H I c pk sig' X' i SS' TR' Hi) Q e He) as R. cbv beta in R.
  assert (F : forall p, p < n -> length (x_com (X e) p ++ x_out (X e) p) = digest_size I + pt_size I) by (intros p Hp; rewrite app_length, (com_len H I c pk sig X e p SS TR He Hp), (out_len H I c pk sig X e p TR He Hp); reflexivity).
  assert (F' : forall p, p < n -> length (x_com (X' e) p ++ x_out (X' e) p) = digest_size I + pt_size I) by (intros p Hp; rewrite app_length, (com_len H I c pk sig' X' e p SS' TR' He Hp), (out_len H I c pk sig' X' e p TR' He Hp); reflexivity).
  pose proof (pf_shape I sig SS e He) as P. pose proof (pf_shape I sig' SS' e He) as P'.
  apply app_inv_len in R; [|rewrite (concat_len _ _ _ F), (concat_len _ _ _ F'); reflexivity]. destruct R as [R1 R2].
  apply app_inv_len in R2; [|rewrite (proj1 (ps_sk _ _ P)), (proj1 (ps_sk _ _ P')); reflexivity]. destruct R2 as [R2 R3]. split; [|split; assumption].
  intros p Hp. pose proof (concat_inj _ _ _ _ F F' R1 p Hp) as W. apply app_inv_len in W; [apply W|]. rewrite (com_len H I c pk sig X e p SS TR He Hp), (com_len H I c pk sig' X' e p SS' TR' He Hp). reflexivity.
Qed.
Definition row3 (f : rep_proof) (x : rep_values) : bytes :=
  to_bytes lam (p_P_at_R f) ++ concat (map (fun p => to_bytes lam (x_P x p)) (seq 0 n)) ++
    concat (map (fun j => to_bytes lam (nth j (p_S_at_R f) 0%N) ++ to_bytes lam (nth j (p_T_at_R f) 0%N) ++
      concat (map (fun p => to_bytes lam (x_S x p j) ++ to_bytes lam (x_T x p j)) (seq 0 n))) (seq 0 M1)).
Lemma shares_len x j : length (concat (map (fun p => to_bytes lam (x_S x p j) ++ to_bytes lam (x_T x p j)) (seq 0 n))) = n * (lam + lam).
Proof. apply concat_len. intros p _. rewrite app_length, !to_bytes_len. reflexivity. Qed.
Lemma col_len f x j : length (to_bytes lam (nth j (p_S_at_R f) 0%N) ++ to_bytes lam (nth j (p_T_at_R f) 0%N) ++
      concat (map (fun p => to_bytes lam (x_S x p j) ++ to_bytes lam (x_T x p j)) (seq 0 n))) = lam + (lam + n * (lam + lam)).
Proof. rewrite !app_length, !to_bytes_len, shares_len. reflexivity. Qed.
Lemma row3_len f x : length (row3 f x) = lam + (n * lam + M1 * (lam + (lam + n * (lam + lam)))).
Proof. unfold row3. rewrite !app_length, to_bytes_len. rewrite (concat_len (fun p => to_bytes lam (x_P x p)) lam) by (intros; apply to_bytes_len). rewrite (concat_len _ (lam + (lam + n * (lam + lam)))) by (intros; apply col_len). reflexivity. Qed.
Lemma row3_inj f f' x x' : row3 f x = row3 f' x' -> to_bytes lam (p_P_at_R f) = to_bytes lam (p_P_at_R f') /\ (forall p, p < n -> to_bytes lam (x_P x p) = to_bytes lam (x_P x' p)) /\
  forall j, j < M1 -> to_bytes lam (nth j (p_S_at_R f) 0%N) = to_bytes lam (nth j (p_S_at_R f') 0%N) /\ to_bytes lam (nth j (p_T_at_R f) 0%N) = to_bytes lam (nth j (p_T_at_R f') 0%N).
Proof.
  intros Q. unfold row3 in Q. apply app_inv_len in Q; [|rewrite !to_bytes_len; reflexivity]. destruct Q as [Q1 Q]. split; [exact Q1|].
  apply app_inv_len in Q; [|transitivity (n * lam); [|symmetry]; apply concat_len; intros; apply to_bytes_len]. destruct Q as [Q2 Q3]. split.
  - apply (concat_inj _ _ lam); [intros; apply to_bytes_len|intros; apply to_bytes_len|exact Q2].
  - intros j Hj. pose proof (concat_inj _ _ _ _ (fun i _ => col_len f x i) (fun i _ => col_len f' x' i) Q3 j Hj) as R. cbv beta in R.
    apply app_inv_len in R; [|rewrite !to_bytes_len; reflexivity]. destruct R as [R1 R2]. split; [exact R1|]. apply app_inv_len in R2; [apply R2|rewrite !to_bytes_len; reflexivity].
Qed.
Lemma step3 : s_salt sig = s_salt sig' -> C \/ (h2_of H I sig = h2_of H I sig' /\ forall e, e < T -> p_P_at_R (pf_of sig e) = p_P_at_R (pf_of sig' e) /\
  p_S_at_R (pf_of sig e) = p_S_at_R (pf_of sig' e) /\ p_T_at_R (pf_of sig e) = p_T_at_R (pf_of sig' e) /\ forall p, p < n -> to_bytes lam (x_P (X e) p) = to_bytes lam (x_P (X' e) p)).
Proof.
  intros ES. destruct (D (h3_input I (s_salt sig) (h2_of H I sig) (pf_of sig) X) (h3_input I (s_salt sig') (h2_of H I sig') (pf_of sig') X')) as [Q|Q].
  2:{ left. right. right. left. split; [exact Q|]. rewrite (ac_h3 _ _ _ _ _ _ _ AC), (ac_h3 _ _ _ _ _ _ _ AC'). exact Eh3. }
  right. unfold h3_input in Q. rewrite ES in Q. apply app_inv_head in Q. apply app_inv_head in Q.
  apply app_inv_len in Q; [|unfold h2_of, digest; rewrite !stream_length; reflexivity]. destruct Q as [Q1 Q]. split; [exact Q1|]. intros e He.
  pose proof (concat_inj (fun e => row3 (pf_of sig e) (X e)) (fun e => row3 (pf_of sig' e) (X' e)) _ _ (fun i _ => row3_len _ _) (fun i _ => row3_len _ _) Q e He) as R. cbv beta in R.
  apply row3_inj in R. destruct R as (R1 & R2 & R3). pose proof (pf_shape I sig SS e He) as P. pose proof (pf_shape I sig' SS' e He) as P'. split; [apply tb_inj; [apply P|apply P'|exact R1]|].
  assert (NE : forall l l' : list N, length l = M1 -> length l' = M1 -> Forall E l -> Forall E l' -> (forall j, j < M1 -> to_bytes lam (nth j l 0%N) = to_bytes lam (nth j l' 0%N)) -> l = l').
  { intros l l' L1 L2 F1 F2 Hj. apply (nth_ext l l' 0%N 0%N); [congruence|]. intros j Hj'. apply tb_inj; [apply (E_nth lam c HI); exact F1|apply (E_nth lam c HI); exact F2|apply Hj; lia]. }
  destruct (ps_S _ _ P), (ps_S _ _ P'), (ps_T _ _ P), (ps_T _ _ P'). split; [apply NE; auto; intros; apply R3; assumption|]. split; [apply NE; auto; intros; apply R3; assumption|exact R2].
Qed.
Lemma step2 : s_salt sig = s_salt sig' -> h2_of H I sig = h2_of H I sig' -> C \/ forall e, e < T -> forall k, k < M2 -> nth k (p_P_delta (pf_of sig e)) 0%N = nth k (p_P_delta (pf_of sig' e)) 0%N.
Proof.
  intros ES E2. destruct (D (h2_input I (s_salt sig) (s_h1 sig) (pf_of sig)) (h2_input I (s_salt sig') (s_h1 sig') (pf_of sig'))) as [Q|Q].
  2:{ left. right. left. split; [exact Q|exact E2]. }
  right. unfold h2_input in Q. rewrite ES, Eh1 in Q. do 3 apply app_inv_head in Q. intros e He k Hk.
  assert (CL : forall s i, length (concat (map (fun k => to_bytes lam (nth k (p_P_delta (pf_of s i)) 0%N)) (seq 0 M2))) = M2 * lam) by (intros; apply concat_len; intros; apply to_bytes_len).
  pose proof (concat_inj _ _ _ _ (fun i _ => CL sig i) (fun i _ => CL sig' i) Q e He) as R. cbv beta in R.
  pose proof (concat_inj _ _ lam _ (fun i _ => to_bytes_len _ _) (fun i _ => to_bytes_len _ _) R k Hk) as W.
  apply tb_inj; [apply (E_nth lam c HI); apply (ps_P _ _ (pf_shape I sig SS e He))|apply (E_nth lam c HI); apply (ps_P _ _ (pf_shape I sig' SS' e He))|exact W].
Qed.
Lemma entry_len s e : sig_shape I s -> e < T -> forall i, i < depth n -> length (nth i (fst (p_reveal (pf_of s e))) []) = seed_size I.
Proof.
  intros Sh He i Hi. pose proof (pf_shape I s Sh e He) as P. apply (ps_entry _ _ P). apply nth_In. rewrite (ps_entries _ _ P).
  pose proof (io_leaves _ _ _ OK) as [H2 H2']. rewrite ceil_log2_depth by lia. exact Hi.
Qed.
Lemma leaf_same e p : e < T -> s_salt sig = s_salt sig' -> p < n -> p <> hidden_of H I sig e -> x_com (X e) p = x_com (X' e) p ->
  x_node (X e) (first_leaf n + p) = x_node (X' e) (first_leaf n + p) \/ C.
Proof.
  intros He ES Hp Np Q. destruct (hidden_eq e He) as [Hh Hh']. pose proof (tr_reps _ _ _ _ _ _ TR e He) as RO. pose proof (tr_reps _ _ _ _ _ _ TR' e He) as RO'.
  rewrite (ro_com _ _ _ _ _ _ _ _ _ _ _ RO p Hp), (ro_com _ _ _ _ _ _ _ _ _ _ _ RO' p Hp), Hh, Hh' in Q.
  destruct (Nat.eqb_spec p (hidden_of H I sig e)) as [W|_]; [congruence|].
  destruct (D (com_input (s_salt sig) e p (x_node (X e) (first_leaf n + p))) (com_input (s_salt sig') e p (x_node (X' e) (first_leaf n + p)))) as [W|W].
  - left. unfold com_input in W. rewrite ES in W. do 3 apply app_inv_head in W. exact W.
  - right. right. right. right. left. exists e, p. split; [exact He|]. split; [exact Hp|]. split; [exact Np|]. split; [exact W|exact Q].
Qed.
Lemma step_tree e : e < T -> s_salt sig = s_salt sig' -> (forall p, p < n -> x_com (X e) p = x_com (X' e) p) ->
  fst (p_reveal (pf_of sig e)) = fst (p_reveal (pf_of sig' e)) \/ C.
Proof.
  intros He ES EC. destruct (hidden_eq e He) as [Hh Hh']. pose proof (tr_reps _ _ _ _ _ _ TR e He) as RO. pose proof (tr_reps _ _ _ _ _ _ TR' e He) as RO'.
  pose proof (pf_shape I sig SS e He) as P. pose proof (pf_shape I sig' SS' e He) as P'. pose proof (hidden_lt H I c nk k0 OK HP Hk8 sig e) as Hm. fold (hidden_of H I sig e) in Hm.
  pose proof (ro_reveal _ _ _ _ _ _ _ _ _ _ _ RO) as A1. pose proof (ro_child _ _ _ _ _ _ _ _ _ _ _ RO) as A2. rewrite Hh in A1, A2. rewrite (total_pow n k0 HP) in A2.
  pose proof (ro_reveal _ _ _ _ _ _ _ _ _ _ _ RO') as B1. pose proof (ro_child _ _ _ _ _ _ _ _ _ _ _ RO') as B2. rewrite Hh' in B1, B2. rewrite <- ES in B2. rewrite (total_pow n k0 HP) in B2.
  destruct (entries_equal n k0 (hidden_of H I sig e) (seed_size I) (io_leaves _ _ _ OK) HP Hm H (s_salt sig) e (fst (p_reveal (pf_of sig e))) (fst (p_reveal (pf_of sig' e))) (x_node (X e)) (x_node (X' e)) C
    (entry_len sig e SS He) A1 A2 (entry_len sig' e SS' He) B1 B2) as [Q|Q].
  - intros k Hk A Co. right. right. right. right. exists e, k. split; [exact He|]. split; [exact Hk|]. split; [exact A|]. rewrite <- ES. exact Co.
  - intros p Hp Np. apply leaf_same; auto.
  - left. apply (nth_ext _ _ [] []); [exact (eq_trans (ps_entries _ _ P) (eq_sym (ps_entries _ _ P')))|]. intros i Hi'. apply Q.
    assert (Hi : i < ceil_log2_nat n) by (rewrite <- (ps_entries _ _ P); exact Hi').
    pose proof (io_leaves _ _ _ OK) as [H2 H2']. rewrite ceil_log2_depth in Hi by lia. exact Hi.
  - right. exact Q.
Qed.
Lemma point_elt s Y e : is_transcript H I c pk s Y -> e < T -> E (x_point (Y e)).
Proof.
  intros TY He. destruct (tr_points _ _ _ _ _ _ TY) as [M EM]. assert (J : In (x_point (Y e)) (map (fun e => x_point (Y e)) (seq 0 T))) by (apply (in_map (fun e => x_point (Y e))), in_seq; lia).
  rewrite EM in J. apply filter_In in J. destruct J as [J _]. apply in_map_iff in J. destruct J as (k & <- & _). apply (api_bytes _ _ HI); [apply stream_bytes|apply stream_length].
Qed.
Lemma same_points : h2_of H I sig = h2_of H I sig' -> forall e, e < T -> x_point (X e) = x_point (X' e).
Proof.
  intros E2 e He. destruct (tr_points _ _ _ _ _ _ TR) as [M EM]. destruct (tr_points _ _ _ _ _ _ TR') as [M' EM'].
  assert (CE : map (candidate H I sig') (seq 0 M') = map (candidate H I sig) (seq 0 M')) by (apply map_ext; intros k; unfold candidate; rewrite E2; reflexivity). rewrite CE in EM'.
  pose proof (filter_prefix (fun R => negb (forbidden I c R)) (candidate H I sig) M M') as F. rewrite <- EM, <- EM', !length_map_seq in F. specialize (F eq_refl).
  assert (Q : nth e (map (fun e => x_point (X e)) (seq 0 T)) 0%N = nth e (map (fun e => x_point (X' e)) (seq 0 T)) 0%N) by (rewrite F; reflexivity). rewrite !nth_map_seq in Q by exact He. exact Q.
Qed.
Lemma P_list_E s Y e p : sig_shape I s -> is_transcript H I c pk s Y -> e < T -> p < n -> p <> x_hidden (Y e) ->
  length (p_pts I (x_coef (Y e)) (p_P_delta (pf_of s e)) p (x_tape (Y e) p)) = 2 * M2 + 1 /\ Forall E (p_pts I (x_coef (Y e)) (p_P_delta (pf_of s e)) p (x_tape (Y e) p)).
Proof.
  intros Sh TY He Hp Np. pose proof (tr_reps _ _ _ _ _ _ TY e He) as RO. pose proof (pf_shape I s Sh e He) as P.
  assert (Lr : length (x_coef (Y e)) = M1) by (rewrite (ro_coef _ _ _ _ _ _ _ _ _ _ _ RO); apply length_map_seq).
  assert (Er : Forall E (x_coef (Y e))) by (rewrite (ro_coef _ _ _ _ _ _ _ _ _ _ _ RO); apply (coef_E H I c nk OK)).
  rewrite (p_pts_eq I _ _ _ _ Lr). split; [apply length_map_seq|]. apply Forall_map, Forall_forall. intros k Hk. apply in_seq in Hk.
  apply (P_adj_elt I c nk OK); try assumption; [apply (ps_P _ _ P)| |lia]. rewrite (ro_tape _ _ _ _ _ _ _ _ _ _ _ RO p Hp Np). split; [apply stream_length|apply stream_bytes].
Qed.
Lemma p_pts_lo rs ds ds' tape k : k < 2 * M2 -> (forall i, i < M2 -> nth i ds 0%N = nth i ds' 0%N) -> nth k (p_pts I rs ds 0 tape) 0%N = nth k (p_pts I rs ds' 0 tape) 0%N.
Proof.
  intros Hk Q. unfold p_pts. cbv zeta. change (0 =? 0) with true. cbv iota. destruct (le_lt_dec M2 k) as [A|A].
  - rewrite !app_nth2 by (rewrite repeat_length; exact A). rewrite repeat_length, !nth_map_seq by lia. rewrite Q by lia. reflexivity.
  - rewrite !app_nth1 by (rewrite repeat_length; exact A). reflexivity.
Qed.
Lemma p_pts_hi rs ds tape : nth (2 * M2) (p_pts I rs ds 0 tape) 0%N = gadd (tape_elem I tape (key_size (i_aes I) + num_sboxes (i_aes I) + M1 * 2 * lam + M2 * lam)) (nth M2 ds 0%N).
Proof.
  unfold p_pts. cbv zeta. change (0 =? 0) with true. cbv iota. rewrite app_nth2 by (rewrite repeat_length; lia). rewrite repeat_length. replace (2 * M2 - M2) with M2 by lia. rewrite nth_map_seq by lia. reflexivity.
Qed.
Lemma step_last e : e < T -> s_salt sig = s_salt sig' -> h2_of H I sig = h2_of H I sig' -> x_com (X e) 0 = x_com (X' e) 0 -> to_bytes lam (x_P (X e) 0) = to_bytes lam (x_P (X' e) 0) ->
  (forall k, k < M2 -> nth k (p_P_delta (pf_of sig e)) 0%N = nth k (p_P_delta (pf_of sig' e)) 0%N) ->
  x_hidden (X e) <> 0 -> ~ In (x_point (X e)) (get_first_n_field_elements c (2 * M2)) ->
  nth M2 (p_P_delta (pf_of sig e)) 0%N = nth M2 (p_P_delta (pf_of sig' e)) 0%N \/ C.
Proof.
  intros He ES E2 EC EP ED Hh NI. destruct (hidden_eq e He) as [Eh Eh']. assert (H0 : 0 < n) by (destruct (io_leaves _ _ _ OK); lia).
  destruct (leaf_same e 0 He ES H0 ltac:(lia) EC) as [EN|Co]; [left|right; exact Co].
  pose proof (tr_reps _ _ _ _ _ _ TR e He) as RO. pose proof (tr_reps _ _ _ _ _ _ TR' e He) as RO'.
  assert (Nh : 0 <> x_hidden (X e)) by lia. assert (Nh' : 0 <> x_hidden (X' e)) by lia.
  pose proof (ro_tape _ _ _ _ _ _ _ _ _ _ _ RO 0 H0 Nh) as T1. pose proof (ro_tape _ _ _ _ _ _ _ _ _ _ _ RO' 0 H0 Nh') as T2. rewrite EN, ES, <- T2 in T1.
  pose proof (ro_coef _ _ _ _ _ _ _ _ _ _ _ RO) as C1. pose proof (ro_coef _ _ _ _ _ _ _ _ _ _ _ RO') as C2. rewrite Eh1, <- C2 in C1.
  pose proof (ro_P _ _ _ _ _ _ _ _ _ _ _ RO 0 H0 Nh) as P1. pose proof (ro_P _ _ _ _ _ _ _ _ _ _ _ RO' 0 H0 Nh') as P2.
  destruct (P_list_E sig X e 0 SS TR He H0 Nh) as [L1 F1]. destruct (P_list_E sig' X' e 0 SS' TR' He H0 Nh') as [L2 F2].
  change (through I c (get_first_n_field_elements c (2 * M2 + 1)) (p_pts I (x_coef (X e)) (p_P_delta (pf_of sig e)) 0 (x_tape (X e) 0)) (x_point (X e)) (x_P (X e) 0)) in P1.
  change (through I c (get_first_n_field_elements c (2 * M2 + 1)) (p_pts I (x_coef (X' e)) (p_P_delta (pf_of sig' e)) 0 (x_tape (X' e) 0)) (x_point (X' e)) (x_P (X' e) 0)) in P2.
  rewrite <- (same_points E2 e He) in P2. pose proof (point_elt sig X e TR He) as HR.
  assert (EE : x_P (X e) 0 = x_P (X' e) 0).
  { apply tb_inj; [| |exact EP]; [destruct P1 as (f & _ & Ff & _ & <-)|destruct P2 as (f & _ & Ff & _ & <-)]; apply (E_horner lam c HI); assumption. }
  rewrite <- EE in P2. rewrite C1, T1 in P1, L1, F1.
  pose proof (last_fixed I c nk OK _ _ (x_point (X e)) (x_P (X e) 0) HR L1 L2 F1 F2 (fun k Hk => p_pts_lo _ _ _ _ k Hk ED) P1 P2 NI) as Q.
  rewrite !p_pts_hi in Q. unfold gadd in Q. apply (f_equal (N.lxor (tape_elem I (x_tape (X' e) 0) (key_size (i_aes I) + num_sboxes (i_aes I) + M1 * 2 * lam + M2 * lam)))) in Q.
  rewrite <- !N.lxor_assoc, N.lxor_nilpotent, !N.lxor_0_l in Q. exact Q.
Qed.
Lemma altered : C \/ same_but_last I c sig sig' X.
Proof.
  destruct step1 as [Co|[ES S1]]; [left; exact Co|]. destruct (step3 ES) as [Co|[E2 S3]]; [left; exact Co|]. destruct (step2 ES E2) as [Co|S2]; [left; exact Co|].
  assert (Q : forall e, e < T -> (pf_of sig' e = pf_of sig e \/ exists v, E v /\ pf_of sig' e = with_last I (pf_of sig e) v /\
    (x_hidden (X e) = 0 \/ In (x_point (X e)) (get_first_n_field_elements c (2 * M2)))) \/ C).
  { intros e He. destruct (S1 e He) as (A1 & A2 & A3). destruct (S3 e He) as (B1 & B2 & B3 & B4). pose proof (S2 e He) as D1. destruct (step_tree e He ES A1) as [F|Co]; [|right; exact Co].
    destruct (hidden_eq e He) as [Eh Eh']. assert (H0 : 0 < n) by (destruct (io_leaves _ _ _ OK); lia).
    assert (EI : snd (p_reveal (pf_of sig e)) = snd (p_reveal (pf_of sig' e))) by (rewrite (IDX e He), (IDX' e He), Eh, Eh'; reflexivity).
    assert (ECl : p_C (pf_of sig e) = p_C (pf_of sig' e)).
    { pose proof (hidden_lt H I c nk k0 OK HP Hk8 sig e) as Hm. fold (hidden_of H I sig e) in Hm. pose proof (A1 _ Hm) as Z.
      rewrite (ro_com _ _ _ _ _ _ _ _ _ _ _ (tr_reps _ _ _ _ _ _ TR e He) _ Hm), (ro_com _ _ _ _ _ _ _ _ _ _ _ (tr_reps _ _ _ _ _ _ TR' e He) _ Hm), Eh, Eh', Nat.eqb_refl in Z. exact Z. }
    assert (PL := ps_P _ _ (pf_shape I sig SS e He)). assert (PL' := ps_P _ _ (pf_shape I sig' SS' e He)).
    assert (FN : p_P_delta (pf_of sig' e) = firstn M2 (p_P_delta (pf_of sig e)) ++ [nth M2 (p_P_delta (pf_of sig' e)) 0%N]).
    { destruct PL as [L1 _], PL' as [L2 _]. apply (nth_ext _ _ 0%N 0%N); [rewrite app_length, firstn_length; cbn [length]; lia|]. intros k Hk. destruct (le_lt_dec M2 k) as [A|A].
      - rewrite app_nth2 by (rewrite firstn_length; lia). rewrite firstn_length. replace (k - Nat.min M2 (length (p_P_delta (pf_of sig e)))) with 0 by lia. cbn [nth]. f_equal. lia.
      - rewrite app_nth1 by (rewrite firstn_length; lia). rewrite <- D1 by exact A. rewrite <- (firstn_skipn M2 (p_P_delta (pf_of sig e))) at 1. rewrite app_nth1 by (rewrite firstn_length; lia). reflexivity. }
    assert (WL : pf_of sig' e = with_last I (pf_of sig e) (nth M2 (p_P_delta (pf_of sig' e)) 0%N)).
    { unfold with_last. rewrite <- FN, ECl, A2, A3, B1, B2, B3. rewrite (surjective_pairing (p_reveal (pf_of sig e))), F, EI, <- (surjective_pairing (p_reveal (pf_of sig' e))). destruct (pf_of sig' e); reflexivity. }
    assert (FR : (x_hidden (X e) = 0 \/ In (x_point (X e)) (get_first_n_field_elements c (2 * M2))) \/ (x_hidden (X e) <> 0 /\ ~ In (x_point (X e)) (get_first_n_field_elements c (2 * M2)))).
    { destruct (Nat.eq_dec (x_hidden (X e)) 0); [left; left; assumption|]. destruct (in_dec N.eq_dec (x_point (X e)) (get_first_n_field_elements c (2 * M2))); [left; right; assumption|right; split; assumption]. }
    destruct FR as [FR|[G1 G2]].
    - left. right. exists (nth M2 (p_P_delta (pf_of sig' e)) 0%N). split; [apply (E_nth lam c HI); apply PL'|]. split; [exact WL|exact FR].
    - destruct (step_last e He ES E2 (A1 0 H0) (B4 0 H0) D1 G1 G2) as [W|Co]; [|right; exact Co]. left. left.
      assert (PE : p_P_delta (pf_of sig' e) = p_P_delta (pf_of sig e)).
      { destruct PL as [L1 _], PL' as [L2 _]. apply (nth_ext _ _ 0%N 0%N); [lia|]. intros k Hk. destruct (Nat.eq_dec k M2) as [->|Nk]; [symmetry; exact W|symmetry; apply D1; lia]. }
      rewrite WL. unfold with_last. rewrite <- FN, PE. destruct (pf_of sig e); reflexivity. }
  apply forall_or in Q. destruct Q as [Q|Co]; [right|left; exact Co]. constructor; [symmetry; exact ES|symmetry; exact Eh1|symmetry; exact Eh3| |exact Q].
  rewrite (ss_len _ _ SS), (ss_len _ _ SS'). reflexivity.
Qed.
End Two.

(** conversely, such a change is not noticed *)
Section Free.
Variables (H : oracle) (I : instance) (c : fctx) (nk k0 : nat).
Hypothesis OK : inst_any I c nk.
Hypothesis HP : num_parties I = 2 ^ k0.
Hypothesis Hk8 : k0 <= 8.
Let HI := io_field _ _ _ OK.
Notation lam := (lambda I).
Notation E := (elt lam).
Notation n := (num_parties I).
Notation T := (num_rounds I).
Notation M1 := (m1 I).
Notation M2 := (m2 I).
Variables (sig sig' : signature) (pk msg : bytes) (X : nat -> rep_values).
Hypothesis SS : sig_shape I sig.
Hypothesis TR : is_transcript H I c pk sig X.
Hypothesis SB : same_but_last I c sig sig' X.

Lemma firstn_nth0 (l : list N) m k v : k < m -> m <= length l -> nth k (firstn m l ++ [v]) 0%N = nth k l 0%N.
Proof. intros A B. rewrite app_nth1 by (rewrite firstn_length; lia). rewrite <- (firstn_skipn m l) at 2. rewrite app_nth1 by (rewrite firstn_length; lia). reflexivity. Qed.
Lemma free_deltas e k : e < T -> k < M2 -> nth k (p_P_delta (pf_of sig' e)) 0%N = nth k (p_P_delta (pf_of sig e)) 0%N.
Proof.
  intros He Hk. destruct (sb_proofs _ _ _ _ _ SB e He) as [-> |(v & _ & -> & _)]; [reflexivity|]. apply firstn_nth0; [exact Hk|]. pose proof (proj1 (ps_P _ _ (pf_shape I sig SS e He))). lia.
Qed.
Lemma free_other e : e < T -> p_reveal (pf_of sig' e) = p_reveal (pf_of sig e) /\ p_C (pf_of sig' e) = p_C (pf_of sig e) /\ p_sk_delta (pf_of sig' e) = p_sk_delta (pf_of sig e) /\
  p_t_delta (pf_of sig' e) = p_t_delta (pf_of sig e) /\ p_P_at_R (pf_of sig' e) = p_P_at_R (pf_of sig e) /\ p_S_at_R (pf_of sig' e) = p_S_at_R (pf_of sig e) /\ p_T_at_R (pf_of sig' e) = p_T_at_R (pf_of sig e).
Proof. intros He. destruct (sb_proofs _ _ _ _ _ SB e He) as [-> |(v & _ & -> & _)]; repeat split; reflexivity. Qed.
Lemma free_h2 : h2_of H I sig' = h2_of H I sig.
Proof.
  unfold h2_of, h2_input. rewrite (sb_salt _ _ _ _ _ SB), (sb_h1 _ _ _ _ _ SB). do 5 f_equal. apply map_seq_ext. intros e He. f_equal. apply map_seq_ext. intros k Hk. rewrite free_deltas by lia. reflexivity.
Qed.
Lemma free_shape : sig_shape I sig'.
Proof.
  constructor; [rewrite (sb_salt _ _ _ _ _ SB)|rewrite (sb_h1 _ _ _ _ _ SB)|rewrite (sb_h3 _ _ _ _ _ SB)|rewrite (sb_len _ _ _ _ _ SB)|]; try apply SS.
  apply Forall_forall. intros f Hf. apply (In_nth _ _ (mkProof ([], 0) [] [] [] [] 0%N [] [])) in Hf. destruct Hf as (e & He & <-). rewrite (sb_len _ _ _ _ _ SB), (ss_len _ _ SS) in He.
  change (proof_shape I (pf_of sig' e)). pose proof (pf_shape I sig SS e He) as P. destruct (sb_proofs _ _ _ _ _ SB e He) as [-> |(v & Hv & -> & _)]; [exact P|].
  constructor; try apply P. cbn [with_last p_P_delta]. destruct (ps_P _ _ P) as [L F]. split; [rewrite app_length, firstn_length; cbn [length]; lia|]. apply Forall_app. split; [|constructor; [exact Hv|constructor]].
  rewrite <- (firstn_skipn M2 (p_P_delta (pf_of sig e))) in F. apply Forall_app in F. apply F.
Qed.
Lemma free_transcript : is_transcript H I c pk sig' X.
Proof.
  constructor.
  - destruct (tr_points _ _ _ _ _ _ TR) as [M EM]. exists M. rewrite EM. f_equal. apply map_ext. intros k. unfold candidate. rewrite free_h2. reflexivity.
  - intros e He. rewrite (sb_salt _ _ _ _ _ SB), (sb_h1 _ _ _ _ _ SB), (sb_h3 _ _ _ _ _ SB). pose proof (tr_reps _ _ _ _ _ _ TR e He) as RO.
    pose proof (free_other e He) as (F1 & F2 & F3 & F4 & F5 & F6 & F7).
    constructor; [apply RO|]. constructor; [rewrite F1; apply RO|apply RO|]. constructor; rewrite ?F1, ?F2, ?F3, ?F4, ?F5, ?F6, ?F7; try apply RO.
    intros p Hp Np. pose proof (ro_P _ _ _ _ _ _ _ _ _ _ _ RO p Hp Np) as Q. destruct (Nat.eqb_spec p 0) as [->|N0]; [|exact Q].
    destruct (sb_proofs _ _ _ _ _ SB e He) as [-> |(v & Hv & EW & [Z|J])]; [exact Q|congruence|].
    destruct (P_list_E H I c nk k0 OK HP Hk8 pk sig X e 0 SS TR He Hp Np) as [L1 Fa].
    assert (L2 : length (p_pts I (x_coef (X e)) (p_P_delta (pf_of sig' e)) 0 (x_tape (X e) 0)) = 2 * M2 + 1) by (unfold p_pts; rewrite app_length, repeat_length, length_map_seq; lia).
    assert (Fb : Forall E (p_pts I (x_coef (X e)) (p_P_delta (pf_of sig' e)) 0 (x_tape (X e) 0))).
    { assert (Lr : length (x_coef (X e)) = M1) by (rewrite (ro_coef _ _ _ _ _ _ _ _ _ _ _ RO); apply length_map_seq).
      assert (Er : Forall E (x_coef (X e))) by (rewrite (ro_coef _ _ _ _ _ _ _ _ _ _ _ RO); apply (coef_E H I c nk OK)).
      rewrite (p_pts_eq I _ _ _ _ Lr). apply Forall_map, Forall_forall. intros k Hk. apply in_seq in Hk.
      apply (P_adj_elt I c nk OK); try assumption; [apply (ps_P _ _ (pf_shape I sig' free_shape e He))| |lia].
      rewrite (ro_tape _ _ _ _ _ _ _ _ _ _ _ RO 0 Hp Np). split; [apply stream_length|apply stream_bytes]. }
    exact (last_free I c nk OK _ _ (x_point (X e)) (x_P (X e) 0) (point_elt H I c nk k0 OK HP Hk8 pk sig X e TR He) L1 L2 Fa Fb
      (fun k Hk => p_pts_lo I k0 HP Hk8 _ _ _ _ k Hk (fun i Hi => eq_sym (free_deltas e i He Hi))) J Q).
Qed.
Lemma free_accepts : accepts H I c pk msg sig X -> accepts H I c pk msg sig' X.
Proof.
  intros [A1 A3 AR]. constructor.
  - rewrite (sb_salt _ _ _ _ _ SB), (sb_h1 _ _ _ _ _ SB), <- A1. f_equal. unfold h1_input. do 4 f_equal. f_equal. apply map_seq_ext. intros e He.
    pose proof (free_other e ltac:(lia)) as (F1 & F2 & F3 & F4 & F5 & F6 & F7). rewrite F3, F4. reflexivity.
  - rewrite (sb_salt _ _ _ _ _ SB), (sb_h3 _ _ _ _ _ SB), free_h2, <- A3. f_equal. unfold h3_input. do 3 f_equal. f_equal. apply map_seq_ext. intros e He.
    pose proof (free_other e ltac:(lia)) as (F1 & F2 & F3 & F4 & F5 & F6 & F7). cbv zeta. rewrite F5, F6, F7. reflexivity.
  - intros e He. pose proof (free_other e He) as (F1 & F2 & F3 & F4 & F5 & F6 & F7). rewrite F5, F6, F7. apply AR. exact He.
Qed.
Lemma free_no_collision : ~ collision_between H I pk msg sig sig' X X.
Proof.
  assert (EH : forall (f : bytes -> bytes) (a b : bytes), a = b -> ~ collides f a b) by (intros f a b Q [Ne _]; exact (Ne Q)).
  intros [Q|[Q|[Q|[(e & q & _ & _ & _ & Q)|(e & k & _ & _ & _ & Q)]]]]; revert Q; apply EH; rewrite (sb_salt _ _ _ _ _ SB).
  - unfold h1_input. do 4 f_equal. f_equal. apply map_seq_ext. intros e He. destruct (free_other e ltac:(lia)) as (_ & _ & -> & -> & _). reflexivity.
  - rewrite (sb_h1 _ _ _ _ _ SB). unfold h2_input. do 3 f_equal. f_equal. apply map_seq_ext. intros e He. f_equal. apply map_seq_ext. intros k Hk. rewrite free_deltas by lia. reflexivity.
  - rewrite free_h2. unfold h3_input. do 3 f_equal. f_equal. apply map_seq_ext. intros e He. destruct (free_other e ltac:(lia)) as (_ & _ & _ & _ & F5 & F6 & F7). cbv zeta. rewrite F5, F6, F7. reflexivity.
  - reflexivity.
  - reflexivity.
Qed.
End Free.

(** *** the statements of PropVerify *)
Section Api.
Variables (H : oracle) (I : instance) (c : fctx).
Hypothesis HB : regular I.
Hypothesis Hc : init_extension_field (lambda I) = Ok c.
Let OK := inst_with I c HB Hc.
Notation T := (num_rounds I).
Lemma unaltered fuel fuel' garb garb' st st' pk msg sig sig' : sig_shape I sig -> sig_shape I sig' -> str (2 * pt_size I) pk -> 1 <= fuel -> 1 <= fuel' ->
  snd (verify H fuel garb st I pk sig msg) = Ok true -> snd (verify H fuel' garb' st' I pk sig' msg) = Ok true -> s_h1 sig = s_h1 sig' -> s_h3 sig = s_h3 sig' ->
  (exists X, is_transcript H I c pk sig X) /\ (exists X, is_transcript H I c pk sig' X) /\
  forall X X', is_transcript H I c pk sig X -> is_transcript H I c pk sig' X' -> collision_between H I pk msg sig sig' X X' \/ same_but_last I c sig sig' X.
Proof.
  intros SS SS' Hpk Hf Hf' V V' E1 E3. destruct (acceptance H I c HB Hc fuel garb st pk sig msg true SS Hpk Hf V) as [A B]. destruct (acceptance H I c HB Hc fuel' garb' st' pk sig' msg true SS' Hpk Hf' V') as [A' B'].
  split; [exact A|]. split; [exact A'|]. intros X X' TR TR'. destruct (regular_pow2 I HB) as (k0 & HP & Hk8). rewrite (snd_verify H I c Hc) in V, V'.
  destruct (body_iff H I c _ k0 OK HP Hk8 sig pk SS Hpk fuel garb msg X true Hf V TR) as [W IDX]. destruct (body_iff H I c _ k0 OK HP Hk8 sig' pk SS' Hpk fuel' garb' msg X' true Hf' V' TR') as [W' IDX'].
  apply (altered H I c _ k0 OK HP Hk8 sig sig' pk msg X X' SS SS' TR TR' (proj1 W eq_refl) (proj1 W' eq_refl) E1 E3 IDX IDX').
Qed.
Lemma offset_free fuel garb st pk msg sig sig' X : sig_shape I sig -> str (2 * pt_size I) pk -> 1 <= fuel ->
  snd (verify H fuel garb st I pk sig msg) = Ok true -> is_transcript H I c pk sig X -> same_but_last I c sig sig' X ->
  sig_shape I sig' /\ is_transcript H I c pk sig' X /\ ~ collision_between H I pk msg sig sig' X X /\
  forall garb' st', snd (verify H fuel garb' st' I pk sig' msg) = Ok true.
Proof.
  intros SS Hpk Hf V TR SB. destruct (regular_pow2 I HB) as (k0 & HP & Hk8). pose proof (free_shape I c k0 HP Hk8 sig sig' X SS SB) as SS'. split; [exact SS'|].
  split; [exact (free_transcript H I c _ k0 OK HP Hk8 sig sig' pk X SS TR SB)|]. split; [exact (free_no_collision H I c k0 HP Hk8 sig sig' pk msg X SS SB)|]. intros garb' st'.
  rewrite (snd_verify H I c Hc) in V |- *.
  destruct (body_iff H I c _ k0 OK HP Hk8 sig pk SS Hpk fuel garb msg X true Hf V TR) as [W IDX].
  destruct (body_cases H I c _ k0 OK HP Hk8 sig' pk SS' Hpk fuel garb' msg Hf) as [[S _]|[_ [[_ (e & He & Ne)]|[[b Vb] _]]]].
  - exfalso. destruct (phase_2_expand H I c fuel (h2_of H I sig) (get_first_n_field_elements c (m2 I))) as [l|x|u|] eqn:EP.
    + revert S. destruct (lagr1 I c _ OK) as [pre1 G1]. destruct (lagr2 I c _ OK) as [pre2 G2]. rewrite <- (free_h2 H I c k0 HP Hk8 sig sig' X SS SB) in EP.
      rewrite (body_X H I c _ OK sig' pk SS' Hpk k0 HP Hk8 X fuel garb' msg l Hf (free_transcript H I c _ k0 OK HP Hk8 sig sig' pk X SS TR SB) EP) with (pre1 := pre1) (pre2 := pre2); [discriminate| |exact G1|exact G2].
      intros e He. destruct (free_other I c sig sig' X SB e He) as [-> _]. apply IDX. exact He.
    + assert (N1 : 1 <= num_parties I) by (pose proof (n_pos I c _ OK); lia); destruct (phase_2_outcome H I N1 c Hc fuel (h2_of H I sig)) as [Z|(l & Z & _)];
        [apply (points_ok I c _ OK); lia|rewrite EP in Z; discriminate Z|rewrite EP in Z; discriminate Z].
    + assert (N1 : 1 <= num_parties I) by (pose proof (n_pos I c _ OK); lia); destruct (phase_2_outcome H I N1 c Hc fuel (h2_of H I sig)) as [Z|(l & Z & _)];
        [apply (points_ok I c _ OK); lia|rewrite EP in Z; discriminate Z|rewrite EP in Z; discriminate Z].
    + unfold verify_body in V. rewrite (contexts_stuck H I c _ k0 OK HP Hk8 sig pk SS Hpk fuel garb msg EP) in V. discriminate V.
  - exfalso. apply Ne. destruct (free_other I c sig sig' X SB e He) as [-> _]. rewrite (IDX e He), (ro_hidden _ _ _ _ _ _ _ _ _ _ _ (tr_reps _ _ _ _ _ _ TR e He)), (sb_h3 _ _ _ _ _ SB). reflexivity.
  - rewrite Vb. f_equal. apply (body_iff H I c _ k0 OK HP Hk8 sig' pk SS' Hpk fuel garb' msg X b Hf Vb (free_transcript H I c _ k0 OK HP Hk8 sig sig' pk X SS TR SB)).
    apply (free_accepts H I c k0 HP Hk8 sig sig' pk msg X SS SB). apply W. reflexivity.
Qed.
Lemma unaltered_strict fuel fuel' garb garb' st st' pk msg sig sig' X X' : sig_shape I sig -> sig_shape I sig' -> str (2 * pt_size I) pk -> 1 <= fuel -> 1 <= fuel' ->
  snd (verify H fuel garb st I pk sig msg) = Ok true -> snd (verify H fuel' garb' st' I pk sig' msg) = Ok true -> s_h1 sig = s_h1 sig' -> s_h3 sig = s_h3 sig' ->
  is_transcript H I c pk sig X -> is_transcript H I c pk sig' X' ->
  (forall e, e < T -> x_hidden (X e) <> 0 /\ ~ In (x_point (X e)) (get_first_n_field_elements c (2 * m2 I))) -> sig <> sig' ->
  collision_between H I pk msg sig sig' X X'.
Proof.
  intros SS SS' Hpk Hf Hf' V V' E1 E3 TR TR' NX Ne. destruct (unaltered fuel fuel' garb garb' st st' pk msg sig sig' SS SS' Hpk Hf Hf' V V' E1 E3) as (_ & _ & A).
  destruct (A X X' TR TR') as [C|[B1 B2 B3 B4 B5]]; [exact C|]. exfalso. apply Ne.
  assert (Q : s_proofs sig = s_proofs sig').
  { apply (nth_ext _ _ (mkProof ([], 0) [] [] [] [] 0%N [] []) (mkProof ([], 0) [] [] [] [] 0%N [] [])); [symmetry; exact B4|]. intros e He. rewrite (ss_len _ _ SS) in He. symmetry.
    destruct (B5 e He) as [Q|(v & _ & _ & [Z|Z])]; [exact Q|exfalso; exact (proj1 (NX e He) Z)|exfalso; exact (proj2 (NX e He) Z)]. }
  clear - B1 B2 B3 Q. destruct sig as [a b d f], sig' as [a' b' d' f']. cbn [s_salt s_h1 s_h3 s_proofs] in *. congruence.
Qed.
Lemma recombine_verify fuel garb st pk sig msg b : sig_shape I sig -> str (2 * pt_size I) pk -> 1 <= fuel -> snd (verify H fuel garb st I pk sig msg) = Ok b ->
  exists ctx1 ctx3 X, verify_contexts H I c fuel garb pk sig msg = Ok (ctx1, ctx3) /\
    h_in ctx1 = h1_input I (s_salt sig) pk msg (pf_of sig) X /\ h_in ctx3 = h3_input I (s_salt sig) (h2_of H I sig) (pf_of sig) X /\
    forall e, e < T -> (forall p, p < num_parties I -> str (pt_size I) (x_out (X e) p)) /\
    xall (pt_size I) (map (x_out (X e)) (seq 0 (num_parties I))) = slice pk (pt_size I) (pt_size I) /\
    (forall j, j < m1 I -> xsum (map (fun p => x_S (X e) p j) (seq 0 (num_parties I))) = nth j (p_S_at_R (pf_of sig e)) 0%N /\
    xsum (map (fun p => x_T (X e) p j) (seq 0 (num_parties I))) = nth j (p_T_at_R (pf_of sig e)) 0%N) /\
    xsum (map (x_P (X e)) (seq 0 (num_parties I))) = p_P_at_R (pf_of sig e).
Proof.
  intros SS Hpk Hf V. rewrite (snd_verify H I c Hc) in V. unfold verify_body in V. destruct (verify_contexts H I c fuel garb pk sig msg) as [[ctx1 ctx3]|x|u|] eqn:E; try discriminate V.
  destruct (recombine H I c HB Hc fuel garb pk sig msg ctx1 ctx3 SS Hpk Hf E) as (X & A). exists ctx1, ctx3, X. split; [reflexivity|exact A].
Qed.
End Api.
