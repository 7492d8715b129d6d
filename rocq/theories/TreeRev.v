(** The reveal list and the constructor that rebuilds a tree from it. *)
From Coq Require Import Arith NArith List Bool Lia.
From Verif Require Import Prelude Instances HashModel TreeModel TreeSpec TreeProofs TreeExpand TreeApi.
Import ListNotations.

(** ** Ancestors and the path from a node to the root *)
Lemma ancestor_le a n : ancestor a n -> a <= n.
Proof. induction 1; [lia|]. pose proof (parent_lt n ltac:(assumption)). lia. Qed.
Lemma ancestor_root n : ancestor 0 n.
Proof.
  induction n as [n IH] using lt_wf_ind. destruct (Nat.eq_dec n 0) as [->|Hn]; [constructor|].
  apply anc_up; [assumption|]. apply IH. apply parent_lt. assumption.
Qed.
Lemma ancestor_inv a n : ancestor a n -> a = n \/ (n <> 0 /\ ancestor a (parent n)).
Proof. destruct 1; auto. Qed.
Lemma ancestor_parent a n : a <> 0 -> ancestor a n -> ancestor (parent a) n.
Proof.
  intros Ha. induction 1; [apply anc_up; [assumption|constructor]|]. apply anc_up; assumption.
Qed.
Lemma ancestor_chain a b n : ancestor a n -> ancestor b n -> a <= b -> ancestor a b.
Proof.
  intros HA. induction 1 as [|n Hn HB IH]; [auto|]. intros Hle.
  apply ancestor_inv in HA. destruct HA as [->|[_ HA]]; [|apply IH; assumption].
  apply ancestor_le in HB. pose proof (parent_lt n Hn). lia.
Qed.
(** two nodes with the same parent are not both ancestors of a node *)
Lemma ancestor_siblings a b n : a <> 0 -> b <> 0 -> parent a = parent b -> ancestor a n -> ancestor b n -> a = b.
Proof.
  assert (G : forall a b, a <> 0 -> b <> 0 -> parent a = parent b -> ancestor a n -> ancestor b n -> a <= b -> a = b).
  { clear a b. intros a b H0 H1 E HA HB Hle. pose proof (ancestor_chain a b n HA HB Hle) as C. apply ancestor_inv in C.
    destruct C as [C|[_ C]]; [exact C|]. rewrite <- E in C. apply ancestor_le in C. pose proof (parent_lt a H0). lia. }
  intros H0 H1 E HA HB. destruct (Nat.le_ge_cases a b); [|symmetry]; apply G; auto.
Qed.
(** a proper ancestor has a child that is an ancestor *)
Lemma ancestor_child q n : ancestor q n -> q <> n -> exists c, c <> 0 /\ parent c = q /\ ancestor c n.
Proof.
  induction 1 as [|n Hn HA IH]; [congruence|]. intros Hq.
  destruct (Nat.eq_dec q (parent n)) as [->|Hne].
  - exists n. repeat split; auto. constructor.
  - destruct (IH Hne) as (c & C0 & C1 & C2). exists c. repeat split; auto. apply anc_up; assumption.
Qed.

Lemma path_up_enough : forall n f g, n <= f -> n <= g -> path_up f n = path_up g n.
Proof.
  induction n as [n IH] using lt_wf_ind. intros f g Hf Hg. destruct f as [|f], g as [|g]; try (replace n with 0 by lia; reflexivity).
  cbn [path_up]. destruct (Nat.eqb_spec n 0) as [|Hn]; [reflexivity|]. f_equal. rewrite get_parent_eq by assumption.
  pose proof (parent_lt n Hn). apply IH; lia.
Qed.
Lemma path_0 : path 0 = []. Proof. reflexivity. Qed.
Lemma path_cons n : n <> 0 -> path n = n :: path (parent n).
Proof.
  intros Hn. unfold path at 1. destruct n as [|n]; [congruence|]. cbn [path_up]. change (S n =? 0) with false. cbv iota.
  f_equal. rewrite get_parent_eq by assumption. pose proof (parent_lt (S n) Hn). apply path_up_enough; lia.
Qed.
Lemma path_in p n : In n (path p) <-> ancestor n p /\ n <> 0.
Proof.
  induction p as [p IH] using lt_wf_ind. destruct (Nat.eq_dec p 0) as [->|Hp].
  - rewrite path_0. split; [contradiction|]. intros [A B]. apply ancestor_le in A. lia.
  - rewrite path_cons by assumption. cbn [In]. rewrite IH by (apply parent_lt; assumption). split.
    + intros [<-|[A B]]; (split; [|assumption]); [constructor|apply anc_up; assumption].
    + intros [A B]. apply ancestor_inv in A. destruct A as [->|[_ A]]; auto.
Qed.
Lemma path_length p : length (path p) = Nat.log2 (p + 1).
Proof.
  induction p as [p IH] using lt_wf_ind. destruct (Nat.eq_dec p 0) as [->|Hp]; [reflexivity|].
  rewrite path_cons by assumption. cbn [length]. rewrite IH by (apply parent_lt; assumption).
  destruct (log2_child 2 (le_n 2) (parent p)) as [A B].
  destruct (parent_cases p Hp) as [E|E]; [rewrite E at 2; rewrite A|rewrite E at 2; rewrite B]; reflexivity.
Qed.

Section Rev.
Variable N : nat.
Hypothesis HN : 2 <= N.
Notation first := (2 ^ depth N - 1).
Notation total := (2 ^ depth N - 1 + N).
Variable e : list bool.
Hypothesis He : forall n, flag e n = exf N n.

Lemma leaf_path_length m : m < N -> length (path (first + m)) = depth N.
Proof.
  intros Hm. rewrite path_length. pose proof (N_le N HN). pose proof (pow_pos (depth N)).
  apply Nat.log2_unique; [lia|]. cbn [Nat.pow]. lia.
Qed.
Lemma leaf_exists m : m < N -> exf N (first + m) = true.
Proof. intros Hm. rewrite ex_leaf by (try assumption; lia). apply Nat.ltb_lt. lia. Qed.
Lemma ancestor_exists a n : ancestor a n -> exf N n = true -> exf N a = true.
Proof. induction 1; intros Hx; [assumption|]. apply IHancestor. apply ex_parent; assumption. Qed.

Lemma sibling_ok node : node <> 0 -> exf N node = true -> has_sibling e node = true ->
  let s := get_sibling total node in s <> 0 /\ s <> node /\ parent s = parent node /\ exf N s = true.
Proof.
  intros H0 Hx Hs. unfold has_sibling in Hs. rewrite He, Hx in Hs. cbn [andb] in Hs. apply negb_true_iff in Hs.
  pose proof (parent_internal N HN node H0 (ex_lt_total N HN node Hx)) as Pi.
  unfold get_sibling. destruct (parent_cases node H0) as [E|E].
  - assert (O : Nat.odd node = true) by (apply Nat.odd_spec; exists (parent node); lia). rewrite O in *.
    cbn [andb] in Hs. apply negb_false_iff in Hs. rewrite He in Hs. pose proof (ex_lt_total N HN _ Hs) as Hlt.
    apply Nat.ltb_lt in Hlt. rewrite Hlt. cbv zeta. repeat split; try lia; try assumption.
    replace (node + 1) with (2 * parent node + 2) by lia. apply parent_right.
  - assert (O : Nat.odd node = false).
    { unfold Nat.odd. apply negb_false_iff. apply Nat.even_spec. exists (parent node + 1). lia. } rewrite O.
    replace (node - 1) with (2 * parent node + 1) by lia. cbv zeta. repeat split; try lia; try apply parent_left.
    rewrite ex_left by assumption. apply ex_parent; assumption.
Qed.
Lemma sibling_complete node s : node <> 0 -> exf N node = true -> s <> 0 -> s <> node -> parent s = parent node -> exf N s = true ->
  has_sibling e node = true /\ get_sibling total node = s.
Proof.
  intros H0 Hx S0 Sn Sp Sx. unfold has_sibling, get_sibling. rewrite He, Hx. cbn [andb].
  pose proof (ex_lt_total N HN _ Sx) as Hlt.
  destruct (parent_cases node H0) as [E|E]; destruct (parent_cases s S0) as [E2|E2]; try lia.
  - assert (O : Nat.odd node = true) by (apply Nat.odd_spec; exists (parent node); lia). rewrite O. cbn [andb].
    replace (node + 1) with s by lia. rewrite He, Sx. cbn [negb]. apply Nat.ltb_lt in Hlt. rewrite Hlt. auto.
  - assert (O : Nat.odd node = false).
    { unfold Nat.odd. apply negb_false_iff. apply Nat.even_spec. exists (parent node + 1). lia. } rewrite O. split; [reflexivity|lia].
Qed.

Definition revealed (l : list nat) (n : nat) : bool :=
  existsb (fun node => has_sibling e node && (get_sibling total node =? n)) l.
Lemma revealed_spec m n : m < N -> revealed (path (first + m)) n = true <->
  exists node, node <> 0 /\ ancestor node (first + m) /\ n <> 0 /\ n <> node /\ parent n = parent node /\ exf N n = true.
Proof.
  intros Hm. unfold revealed. rewrite existsb_exists. split.
  - intros (node & Hi & Hn). apply path_in in Hi. destruct Hi as [A B]. apply andb_true_iff in Hn. destruct Hn as [C D].
    apply Nat.eqb_eq in D. exists node. split; [assumption|]. split; [assumption|]. subst n. apply sibling_ok; auto.
    eapply ancestor_exists; [exact A|]. apply leaf_exists. assumption.
  - intros (node & A & B & C & D & F & G). exists node. split; [apply path_in; auto|].
    destruct (sibling_complete node n A) as [X Y]; auto.
    { eapply ancestor_exists; [exact B|]. apply leaf_exists. assumption. }
    rewrite X, Y, Nat.eqb_refl. reflexivity.
Qed.

(** the nodes that get a value are those that are not ancestors of the hidden leaf *)
Lemma rebuilt_has (hasf : nat -> bool) m : m < N ->
  (forall n, hasf n = true <-> revealed (path (first + m)) n = true \/ (n <> 0 /\ exf N n = true /\ hasf (parent n) = true)) ->
  forall n, hasf n = true <-> exf N n = true /\ ~ ancestor n (first + m).
Proof.
  intros Hm Hh. induction n as [n IH] using lt_wf_ind. rewrite Hh, revealed_spec by assumption.
  destruct (Nat.eq_dec n 0) as [->|Hn].
  - split; [|intros [_ A]; destruct A; apply ancestor_root]. intros [(node & _ & _ & A & _)|[A _]]; congruence.
  - specialize (IH (parent n) (parent_lt n Hn)). split.
    + intros [(node & A & B & C & D & F & G)|(A & B & C)].
      * split; [assumption|]. intros An. apply D. apply (ancestor_siblings n node (first + m)); assumption.
      * split; [assumption|]. intros An. apply IH in C. destruct C as [_ C]. apply C. apply ancestor_parent; assumption.
    + intros [Hx Ha]. destruct (hasf (parent n)) eqn:Ep; [right; auto|left].
      assert (An : ancestor (parent n) (first + m)).
      { destruct (in_dec Nat.eq_dec (parent n) (path (first + m))) as [I|I]; [apply path_in in I; tauto|].
        destruct (Nat.eq_dec (parent n) 0) as [E|E]; [rewrite E; apply ancestor_root|].
        exfalso. assert (Hf : hasf (parent n) = true); [|congruence]. rewrite Ep. apply IH. split; [apply ex_parent; assumption|]. intros A. apply I. apply path_in; auto. }
      pose proof (parent_internal N HN n Hn (ex_lt_total N HN n Hx)).
      destruct (ancestor_child _ _ An ltac:(lia)) as (c & C0 & C1 & C2).
      exists c. repeat split; auto. intros ->. apply Ha. assumption.
Qed.

(** ** Placing the revealed seeds *)
Lemma place_ok ss (VR : nat -> bytes -> Prop) (entries : list bytes) : (forall v, In v entries -> length v = ss) ->
  forall l k (d : bytes) (h : list bool), (forall node, In node l -> node <> 0 /\ exf N node = true) -> k + length l <= length entries ->
  length d = total * ss -> length h = total ->
  (forall i, i < length l -> has_sibling e (nth i l 0) = true -> VR (get_sibling total (nth i l 0)) (nth (k + i) entries [])) ->
  (forall n, flag h n = true -> VR n (slot ss d n)) ->
  exists (d' : bytes) (h' : list bool), foldM (place_sibling e ss total entries) (combine (seq k (length l)) l) (d, h) = Ok (d', h') /\
    length d' = total * ss /\ length h' = total /\ (forall n, flag h' n = flag h n || revealed l n) /\
    (forall n, flag h' n = true -> VR n (slot ss d' n)).
Proof.
  intros Hen. induction l as [|node l IH]; intros k d h Hl Hk Ld Lh Hv Hh.
  - exists d, h. cbn. repeat split; auto. intros n. symmetry. apply orb_false_r.
  - cbn [length seq combine foldM]. cbn [length] in Hk. 
    assert (EF : place_sibling e ss total entries (d, h) (k, node) = if has_sibling e node then
      do v <- get entries k; do data <- write_at d (get_sibling total node * ss) v; do has <- set h (get_sibling total node) true; Ok (data, has)
      else Ok (d, h)) by reflexivity. rewrite EF. clear EF.
    destruct (Hl node (or_introl eq_refl)) as [N0 Nx].
    assert (Hl' : forall node, In node l -> node <> 0 /\ exf N node = true) by (intros; apply Hl; right; assumption).
    assert (Hv' : forall i, i < length l -> has_sibling e (nth i l 0) = true -> VR (get_sibling total (nth i l 0)) (nth (S k + i) entries [])).
    { intros i Hi Hs. specialize (Hv (S i) ltac:(cbn; lia)). cbn [nth] in Hv. replace (S k + i) with (k + S i) by lia. apply Hv. assumption. }
    destruct (has_sibling e node) eqn:Es; cbn [bind].
    + destruct (sibling_ok node N0 Nx Es) as (S0 & S1 & S2 & S3). pose proof (ex_lt_total N HN _ S3) as Slt.
      rewrite (@get_ok bytes entries k []) by lia. cbn [bind].
      destruct (write_slot ss d total (get_sibling total node) (nth k entries []) Ld Slt) as (d1 & -> & L1 & D1).
      { apply Hen. apply nth_In. lia. }
      cbn [bind]. destruct (set_ok h (get_sibling total node)) as (h1 & -> & L2 & H1); [lia|]. cbn [bind].
      destruct (IH (S k) d1 h1 Hl' ltac:(lia) ltac:(lia) ltac:(lia) Hv') as (d' & h' & -> & A & B & C & D).
      * intros n Hn. rewrite H1 in Hn. rewrite D1. destruct (Nat.eqb_spec n (get_sibling total node)) as [En|Hne].
        -- rewrite En. specialize (Hv 0 ltac:(cbn; lia)). cbn [nth] in Hv. rewrite Nat.add_0_r in Hv. apply Hv. assumption.
        -- cbn [orb] in Hn. apply Hh. assumption.
      * exists d', h'. repeat split; auto. intros n. rewrite C, H1. unfold revealed. cbn [existsb]. rewrite Es. cbn [andb].
        rewrite (Nat.eqb_sym n). destruct (get_sibling total node =? n), (flag h n); reflexivity.
    + destruct (IH (S k) d h Hl' ltac:(lia) Ld Lh Hv' Hh) as (d' & h' & -> & A & B & C & D).
      exists d', h'. repeat split; auto. intros n. rewrite C. unfold revealed. cbn [existsb]. rewrite Es. reflexivity.
Qed.
End Rev.

(** ** Second constructor *)
Definition entries_ok (N ss : nat) (entries : list bytes) : Prop :=
  length entries = depth N /\ forall v, In v entries -> length v = ss.
(** the nodes whose seeds the reveal list for leaf m carries, lowest first *)
Definition sib_of (N m i : nat) : nat := get_sibling (2 ^ depth N - 1 + N) (nth i (path (2 ^ depth N - 1 + m)) 0).

Lemma seed_tree_rev_ok H salt rep N ss (entries : list bytes) m (VR : nat -> bytes -> Prop) : leaves_ok N -> 1 <= ss <= 32 ->
  entries_ok N ss entries -> m < N ->
  (forall n s, n <> 0 -> exf N n = true -> length s = ss -> VR (parent n) s -> VR n (child_seed H salt rep s (parent n) (is_right n))) ->
  (forall i, i < depth N -> sib_of N m i <> 0 -> exf N (sib_of N m i) = true -> VR (sib_of N m i) (nth i entries [])) ->
  exists t, seed_tree_rev H salt rep (entries, m) N = Ok t /\ tree_ok N ss t /\
    forall n, (flag (t_has t) n = true <-> exf N n = true /\ ~ ancestor n (2 ^ depth N - 1 + m)) /\
      (flag (t_has t) n = true -> VR n (slot ss (t_data t) n)).
Proof.
  intros HL Hss [He1 He2] Hm HVR Hen. pose proof HL as [H2 _]. unfold seed_tree_rev. rewrite total_ok by assumption. cbn [bind].
  destruct (build_exists_ok N H2) as (e & -> & Le & He). cbn [bind fst snd].
  pose proof (depth_spec N H2) as [_ D1].
  destruct entries as [|v entries'] eqn:Ee; [cbn in He1; lia|]. cbn [bind]. rewrite <- Ee in *.
  assert (Lv : length v = ss) by (apply He2; rewrite Ee; left; reflexivity). rewrite Lv.
  replace (2 ^ depth N - 1 + N - N + m) with (2 ^ depth N - 1 + m) by lia.
  pose proof (leaf_path_length N H2 m Hm) as Lp. pose proof (leaf_exists N H2 m Hm) as Lx.
  assert (Hp : forall node, In node (path (2 ^ depth N - 1 + m)) -> node <> 0 /\ exf N node = true).
  { intros node Hi. apply path_in in Hi. destruct Hi as [A B]. split; [assumption|]. eapply ancestor_exists; [exact H2|exact A|exact Lx]. }
  destruct (place_ok N H2 e He ss VR entries He2 (path (2 ^ depth N - 1 + m)) 0 (zeros ((2 ^ depth N - 1 + N) * ss)) (repeat false (2 ^ depth N - 1 + N)))
    as (d & h & -> & Ld & Lh & Fh & Vh); auto.
  { lia. } { apply repeat_length. } { apply repeat_length. }
  { intros i Hi Hs. cbn [Nat.add]. rewrite Lp in Hi. destruct (Hp (nth i (path (2 ^ depth N - 1 + m)) 0)) as [Q1 Q2]; [apply nth_In; lia|].
    destruct (sibling_ok N H2 e He _ Q1 Q2 Hs) as (S0 & _ & _ & S3). apply (Hen i Hi); assumption. }
  { intros n Hn. rewrite flag_repeat in Hn. discriminate. }
  cbn [bind fst snd]. destruct (Nat.leb_spec (2 ^ depth N - 1 + N) 1); [lia|]. destruct (Nat.ltb_spec 64 (2 * ss)); [lia|].
  set (K0 := revealed N e (path (2 ^ depth N - 1 + m))).
  assert (HK0 : forall n, K0 n = true -> exf N n = true).
  { intros n Hn. apply (revealed_spec N H2 e He m n Hm) in Hn. destruct Hn as (node & _ & _ & _ & _ & _ & X). assumption. }
  assert (I0 : Inv N ss VR K0 0 (h, (d, zeros 64))).
  { split.
    - repeat split; assumption.
    - intros n Hn. unfold has in Hn. cbn [fst] in Hn. split; [|apply Vh; assumption]. rewrite Fh, flag_repeat in Hn. apply HK0. exact Hn.
    - intros n. unfold has. cbn [fst]. rewrite Fh, flag_repeat. cbn [orb]. split; [auto|]. intros [A|(_ & A & _)]; [exact A|lia]. }
  destruct (expand_all_ok H salt rep N ss H2 Hss e He VR HVR K0 true ltac:(discriminate) ss (2 * ss) (h, (d, zeros 64)) I0)
    as (w & i & -> & I1 & Hi); [intros; left; reflexivity|].
  cbn [bind]. eexists. split; [reflexivity|]. pose proof (inv_wf _ _ _ _ _ _ I1) as (W1 & W2 & W3).
  split; [split; try reflexivity; assumption|]. cbn [t_has t_data]. intros n. split.
  - apply (rebuilt_has N H2 e He (has w) m Hm). apply (final_has N ss VR K0 i w H2 Hi I1).
  - intros Hn. apply (inv_val _ _ _ _ _ _ I1 n Hn).
Qed.

(** ** The reveal list *)
Lemma reveal_ok N ss t m : 2 <= N -> tree_ok N ss t -> m < N ->
  exists entries : list bytes, reveal_all_but t m = Ok (entries, m) /\ entries_ok N ss entries /\
    forall i, i < depth N ->
      (sib_of N m i <> 0 /\ exf N (sib_of N m i) = true /\ ~ ancestor (sib_of N m i) (2 ^ depth N - 1 + m) /\ nth i entries [] = slot ss (t_data t) (sib_of N m i)) \/
      (~ (sib_of N m i <> 0 /\ exf N (sib_of N m i) = true) /\ nth i entries [] = zeros ss).
Proof.
  intros H2 [T1 T2 T3 T4 T5] Hm. unfold reveal_all_but. rewrite T1, T2, T3.
  replace (2 ^ depth N - 1 + N - N + m) with (2 ^ depth N - 1 + m) by lia.
  pose proof (leaf_path_length N H2 m Hm) as Lp. pose proof (leaf_exists N H2 m Hm) as Lx.
  set (p := path (2 ^ depth N - 1 + m)) in *. set (total := 2 ^ depth N - 1 + N) in *.
  assert (Hp : forall node, In node p -> node <> 0 /\ exf N node = true /\ ancestor node (2 ^ depth N - 1 + m)).
  { intros node Hi. apply path_in in Hi. destruct Hi as [A B]. split; [assumption|]. split; [|assumption]. eapply ancestor_exists; [exact H2|exact A|exact Lx]. }
  set (g := fun node => if has_sibling (t_exists t) node then slot ss (t_data t) (get_sibling total node) else zeros ss).
  assert (Hlt : forall node, In node p -> has_sibling (t_exists t) node = true -> get_sibling total node < total).
  { intros node Hi Es. destruct (Hp node Hi) as (A & B & _).
    destruct (sibling_ok N H2 _ T4 node A B Es) as (_ & _ & _ & S3). apply (ex_lt_total N H2 _ S3). }
  rewrite (mapM_ok _ g).
  2:{ intros node Hi. unfold g. destruct (has_sibling (t_exists t) node) eqn:Es; [|reflexivity].
      apply (read_slot ss (t_data t) total); [exact T5|]. apply Hlt; assumption. }
  cbn [bind]. exists (map g p). split; [reflexivity|]. split; [split|].
  - rewrite map_length. exact Lp.
  - intros v Hv. apply in_map_iff in Hv. destruct Hv as (node & <- & Hi). unfold g. destruct (has_sibling (t_exists t) node) eqn:Es.
    + apply (slot_length ss _ _ _ T5). apply Hlt; assumption.
    + apply repeat_length.
  - intros i Hi. unfold sib_of. fold p total. assert (Hin : In (nth i p 0) p) by (apply nth_In; lia).
    rewrite (nth_indep _ [] (g 0)) by (rewrite map_length; lia). rewrite map_nth. unfold g.
    destruct (Hp _ Hin) as (A & B & C). destruct (has_sibling (t_exists t) (nth i p 0)) eqn:Es.
    + left. destruct (sibling_ok N H2 _ T4 _ A B Es) as (S0 & S1 & S2 & S3). fold total in S0, S1, S2, S3. repeat split; auto.
      intros An. apply S1. apply (ancestor_siblings _ _ (2 ^ depth N - 1 + m)); assumption.
    + right. split; [|reflexivity]. intros [S0 S3].
      revert S0 S3. unfold has_sibling in Es. rewrite T4, B in Es. cbn [andb] in Es. apply negb_false_iff in Es. apply andb_true_iff in Es.
      destruct Es as [O X]. apply negb_true_iff in X. rewrite T4 in X. unfold get_sibling. rewrite O.
      destruct (nth i p 0 + 1 <? total); congruence.
Qed.

(** ** Together *)
Section Both.
Variables (H : oracle) (salt : bytes) (rep N : nat) (seed : bytes).
Hypothesis HL : leaves_ok N.
Hypothesis Hss : 1 <= length seed <= 32.
Hypothesis Hw : wide N.
Notation ss := (length seed).

Lemma get_leaf_ok t j : tree_ok N ss t -> j < N -> get_leaf t j =
  Ok (if flag (t_has t) (2 ^ depth N - 1 + j) then Some (slot ss (t_data t) (2 ^ depth N - 1 + j)) else None).
Proof.
  intros [T1 T2 T3 T4 T5] Hj. unfold get_leaf. rewrite T1, T2, T3. replace (2 ^ depth N - 1 + N - N + j) with (2 ^ depth N - 1 + j) by lia.
  destruct (flag (t_has t) (2 ^ depth N - 1 + j)); [|reflexivity]. rewrite (read_slot ss _ (2 ^ depth N - 1 + N)) by (auto; lia). reflexivity.
Qed.
Lemma leaf_not_ancestor i j : ancestor (2 ^ depth N - 1 + j) (2 ^ depth N - 1 + i) -> i < N -> i = j.
Proof.
  intros A Hi. apply ancestor_inv in A. destruct A as [A|[A B]]; [lia|].
  apply ancestor_le in B. destruct HL as [H2 _]. pose proof (parent_internal N H2 _ A ltac:(lia)). lia.
Qed.

Lemma roundtrip i : i < N ->
  exists t (entries : list bytes) t', seed_tree H salt rep seed N = Ok t /\ reveal_all_but t i = Ok (entries, i) /\
    seed_tree_rev H salt rep (entries, i) N = Ok t' /\ entries_ok N ss entries /\ tree_ok N ss t /\ tree_ok N ss t' /\
    (forall j, j < N -> get_leaf t j = Ok (Some (leaf_seed H salt rep seed N j))) /\
    (forall j, j < N -> get_leaf t' j = Ok (if j =? i then None else Some (leaf_seed H salt rep seed N j))) /\
    (forall v : bytes, In v entries -> v = zeros ss \/ exists n, ~ ancestor n (first_leaf N + i) /\ v = node_seed H salt rep seed n) /\
    (forall n, ancestor n (first_leaf N + i) -> flag (t_has t') n = false).
Proof.
  intros Hi. pose proof HL as [H2 _]. destruct (seed_tree_ok H salt rep N seed HL Hss Hw) as (t & E1 & T1 & V1).
  destruct (reveal_ok N ss t i H2 T1 Hi) as (entries & E2 & T2 & V2).
  destruct (seed_tree_rev_ok H salt rep N ss entries i (fun n s => s = node_seed H salt rep seed n) HL Hss T2 Hi) as (t' & E3 & T3 & V3).
  { intros n s Hn _ _ ->. symmetry. apply node_seed_child. assumption. }
  { intros k Hk S0 S1. destruct (V2 k Hk) as [(_ & X & _ & ->)|(X & _)]; [|tauto]. apply V1. assumption. }
  exists t, entries, t'. split; [exact E1|]. split; [exact E2|]. split; [exact E3|]. split; [exact T2|]. split; [exact T1|]. split; [exact T3|].
  split; [|split; [|split]].
  - intros j Hj. rewrite (get_leaf_ok t j T1 Hj). destruct (V1 _ (leaf_exists N H2 j Hj)) as [-> ->]. reflexivity.
  - intros j Hj. rewrite (get_leaf_ok t' j T3 Hj). destruct (V3 (2 ^ depth N - 1 + j)) as [Va Vb].
    destruct (flag (t_has t') (2 ^ depth N - 1 + j)) eqn:F.
    + rewrite Vb by reflexivity. destruct (proj1 Va eq_refl) as [_ An]. destruct (Nat.eqb_spec j i) as [->|]; [destruct An; constructor|reflexivity].
    + destruct (Nat.eqb_spec j i) as [->|Hne]; [reflexivity|]. exfalso.
      assert (X : false = true); [|discriminate]. apply Va. split; [apply leaf_exists; assumption|]. intros An. apply Hne.
      symmetry. apply leaf_not_ancestor; assumption.
  - intros v Hv. destruct (In_nth _ _ [] Hv) as (k & Hk & <-). assert (L2 : @length bytes entries = depth N) by apply T2. change (k < @length bytes entries) in Hk. rewrite L2 in Hk.
    destruct (V2 k Hk) as [(_ & X & Y & Z)|(_ & Z)]; [right|left; exact Z].
    exists (sib_of N i k). split; [exact Y|]. etransitivity; [exact Z|]. apply V1. assumption.
  - intros n An. destruct (V3 n) as [Va _]. destruct (flag (t_has t') n); [|reflexivity]. destruct (proj1 Va eq_refl) as [_ X]. destruct X. exact An.
Qed.
End Both.

(** ** The hidden leaf is independent of the reveal list *)
Section Hidden.
Variables (H : oracle) (salt : bytes) (rep N : nat) (seed : bytes) (i : nat) (x : bytes).
Hypothesis HL : leaves_ok N.
Hypothesis Hss : 1 <= length seed <= 32.
Hypothesis Hw : wide N.
Hypothesis Hi : i < N.
Hypothesis Hx : length x = length seed /\ is_bytes x.
Hypothesis H16 : (N.of_nat (2 ^ depth N) <= 65536)%N.
Notation ss := (length seed).
Notation p := (first_leaf N + i).

(** the expansion that produces leaf i *)
Definition last_input : bytes := [1%N] ++ node_seed H salt rep seed (parent p) ++ salt ++ le16 rep ++ le16 (parent p).
Definition reprogram : oracle := fun v m k =>
  if Bool.eqb v (2 * ss =? 32) && (if list_eq_dec N.eq_dec m last_input then true else false) &&
     ((if is_right p then ss else 0) <=? k) && (k <? (if is_right p then ss else 0) + ss)
  then nth (k - (if is_right p then ss else 0)) x 0%N else H v m k.

Lemma stream_ext G G' v m off len : (forall k, off <= k < off + len -> G v m k = G' v m k) -> stream G v m off len = stream G' v m off len.
Proof. intros E. unfold stream. apply map_ext_in. intros k Hk. apply in_seq in Hk. rewrite E by lia. reflexivity. Qed.
Lemma input_inj s s' q q' : length s = length s' -> (N.of_nat q < 65536)%N -> (N.of_nat q' < 65536)%N ->
  [1%N] ++ s ++ salt ++ le16 rep ++ le16 q = [1%N] ++ s' ++ salt ++ le16 rep ++ le16 q' -> q = q'.
Proof.
  intros Hl Hq Hq' E. apply app_inv_head in E. rewrite !app_assoc in E. apply app_inj_tail_iff in E || idtac.
  apply le16_inj; auto.
  assert (A : forall (a b c d : bytes), length a = length b -> a ++ c = b ++ d -> c = d).
  { induction a as [|y a IH]; intros [|z b] c d L F; try discriminate; auto. cbn in L, F. injection F as _ F. injection L as L. eapply IH; eauto. }
  eapply A; [|exact E]. rewrite !app_length. lia.
Qed.
Lemma p_nz : p <> 0. Proof. unfold first_leaf. destruct HL as [H2 _]. pose proof (depth_spec N H2) as [[A B] C]. assert (2 ^ depth N >= 2 ^ 1) by (apply Nat.pow_le_mono_r; lia). cbn in *. lia. Qed.
Lemma child_other s q r : length s = ss -> (N.of_nat q < 65536)%N -> (q <> parent p \/ r <> is_right p) ->
  child_seed reprogram salt rep s q r = child_seed H salt rep s q r.
Proof.
  intros Hs Hq Hne. unfold child_seed. apply stream_ext. intros k Hk. unfold reprogram.
  destruct (list_eq_dec N.eq_dec ([1%N] ++ s ++ salt ++ le16 rep ++ le16 q) last_input) as [E|E]; [|rewrite andb_false_r; reflexivity].
  unfold last_input in E. apply input_inj in E; auto.
  - destruct Hne as [|Hne]; [congruence|]. rewrite Hs in Hk.
    destruct (is_right p), r; try congruence.
    + destruct (Nat.leb_spec ss k); [lia|]. rewrite andb_false_r. reflexivity.
    + destruct (Nat.ltb_spec k (0 + ss)); [lia|]. rewrite andb_false_r. reflexivity.
  - rewrite node_seed_length. assumption.
  - destruct HL as [H2 _]. pose proof (parent_internal N H2 p p_nz). unfold first_leaf in *. lia.
Qed.
Lemma node_other n : n <> p -> exf N n = true -> node_seed reprogram salt rep seed n = node_seed H salt rep seed n.
Proof.
  destruct HL as [H2 _]. induction n as [n IH] using lt_wf_ind. intros Hn Hx'.
  destruct (Nat.eq_dec n 0) as [->|H0]; [reflexivity|]. rewrite (node_seed_child reprogram salt rep seed n), (node_seed_child H salt rep seed n) by assumption.
  pose proof (parent_internal N H2 n H0 (ex_lt_total N H2 n Hx')) as Pi.
  rewrite IH; [|apply parent_lt; assumption|unfold first_leaf; lia|apply ex_parent; assumption].
  apply child_other; [apply node_seed_length|lia|].
  destruct (Nat.eq_dec (parent n) (parent p)) as [E|E]; [right|left; exact E].
  intros R. apply Hn. pose proof (parent_cases n H0) as C1. pose proof (parent_cases p p_nz) as C2.
  pose proof (right_left (parent n)) as A1. pose proof (right_right (parent n)) as A2.
  rewrite E in C1, A1, A2. destruct C1 as [C1|C1], C2 as [C2|C2]; try congruence.
Qed.
Lemma node_hidden : node_seed reprogram salt rep seed p = x.
Proof.
  destruct HL as [H2 _]. rewrite node_seed_child by apply p_nz.
  assert (Hlx : exf N p = true) by (apply leaf_exists; assumption).
  assert (Px : parent p <> p) by (pose proof (parent_lt p p_nz); lia).
  rewrite node_other; [|exact Px|apply ex_parent; auto; apply p_nz].
  unfold child_seed. rewrite node_seed_length. destruct Hx as [Lx Bx]. fold last_input.
  set (off := if is_right p then ss else 0).
  apply (nth_ext _ _ 0%N 0%N); [rewrite stream_length; auto|]. intros k Hk. rewrite stream_length in Hk.
  unfold stream. rewrite (nth_indep _ _ (N.modulo (reprogram (2 * ss =? 32) last_input 0) 256)) by (rewrite map_length, seq_length; assumption).
  rewrite map_nth with (f := fun i => N.modulo (reprogram (2 * ss =? 32) last_input i) 256). rewrite seq_nth by assumption.
  unfold reprogram. fold off. rewrite Bool.eqb_reflx. destruct (list_eq_dec N.eq_dec last_input last_input); [|congruence]. cbn [andb].
  destruct (Nat.leb_spec off (off + k)); [|lia]. destruct (Nat.ltb_spec (off + k) (off + ss)); [|lia]. cbn [andb].
  replace (off + k - off) with k by lia. apply N.mod_small. apply (is_bytes_nth x k Bx).
Qed.
Lemma hidden_leaf_free :
  exists t t' (entries : list bytes), seed_tree H salt rep seed N = Ok t /\ seed_tree reprogram salt rep seed N = Ok t' /\
    reveal_all_but t i = Ok (entries, i) /\ reveal_all_but t' i = Ok (entries, i) /\
    get_leaf t' i = Ok (Some x) /\ (forall j, j < N -> j <> i -> get_leaf t' j = get_leaf t j).
Proof.
  pose proof HL as [H2 _].
  destruct (seed_tree_ok H salt rep N seed HL Hss Hw) as (t & E1 & T1 & V1).
  destruct (seed_tree_ok reprogram salt rep N seed HL Hss Hw) as (t' & E1' & T1' & V1').
  destruct (reveal_ok N ss t i H2 T1 Hi) as (entries & E2 & [T2 _] & V2).
  destruct (reveal_ok N ss t' i H2 T1' Hi) as (entries' & E2' & [T2' _] & V2').
  assert (E : entries' = entries).
  { apply (@nth_ext bytes entries' entries [] []); [congruence|]. intros k Hk. rewrite T2' in Hk.
    destruct (V2 k Hk) as [(A & B & C & ->)|(A & ->)], (V2' k Hk) as [(A' & B' & C' & ->)|(A' & ->)]; try tauto.
    destruct (V1 _ B) as [_ ->]. destruct (V1' _ B) as [_ ->]. apply node_other; [|assumption].
    intros Ep. apply C. rewrite Ep. constructor. }
  subst entries'. exists t, t', entries. repeat split; auto.
  - rewrite (get_leaf_ok N seed Hss t' i T1' Hi). destruct (V1' _ (leaf_exists N H2 i Hi)) as [-> ->]. rewrite <- node_hidden. reflexivity.
  - intros j Hj Hne. rewrite (get_leaf_ok N seed Hss t' j T1' Hj), (get_leaf_ok N seed Hss t j T1 Hj).
    destruct (V1' _ (leaf_exists N H2 j Hj)) as [-> ->]. destruct (V1 _ (leaf_exists N H2 j Hj)) as [-> ->].
    f_equal. f_equal. apply node_other; [unfold first_leaf; lia|apply leaf_exists; assumption].
Qed.
End Hidden.

(** ** Forms used by the property theorems *)
Lemma tree_wide H salt rep seed N t : leaves_ok N -> 1 <= length seed <= 32 -> seed_tree H salt rep seed N = Ok t -> wide N.
Proof.
  intros HL Hss E. destruct (Nat.lt_ge_cases (2 ^ depth N - 16) N) as [A|A]; [exact A|].
  rewrite seed_tree_overrun in E by (auto; unfold wide; lia). discriminate.
Qed.
Lemma first_ctor_iff H salt rep seed N : leaves_ok N -> 1 <= length seed <= 32 ->
  (2 ^ Nat.log2_up N - 16 < N -> exists t, seed_tree H salt rep seed N = Ok t) /\
  (N <= 2 ^ Nat.log2_up N - 16 -> seed_tree H salt rep seed N = UB OutOfBounds).
Proof.
  intros HL Hss. split; intros Hw.
  - destruct (seed_tree_ok H salt rep N seed HL Hss Hw) as (t & -> & _). eauto.
  - apply seed_tree_overrun; auto. unfold wide, depth. lia.
Qed.
Lemma second_ctor_safe H salt rep entries m N ss : leaves_ok N -> 1 <= ss <= 32 -> length entries = ceil_log2_nat N ->
  (forall v : bytes, In v entries -> length v = ss) -> m < N -> exists t, seed_tree_rev H salt rep (entries, m) N = Ok t /\
  (forall j, j < N -> exists o, get_leaf t j = Ok o /\ (o = None <-> j = m) /\ forall v, o = Some v -> length v = ss).
Proof.
  intros HL Hss Hlen Hv Hm. pose proof HL as [H2 H3]. rewrite ceil_log2_depth in Hlen by lia.
  destruct (seed_tree_rev_ok H salt rep N ss entries m (fun _ _ => True) HL Hss (conj Hlen Hv) Hm) as (t & E & T & V); auto.
  exists t. split; [exact E|]. intros j Hj. pose proof (get_leaf_ok N (zeros ss)) as G. unfold zeros in G. rewrite repeat_length in G.
  rewrite (G Hss t j T Hj). destruct (V (2 ^ depth N - 1 + j)) as [A _]. eexists. split; [reflexivity|].
  destruct (flag (t_has t) (2 ^ depth N - 1 + j)) eqn:F.
  - split.
    + split; [discriminate|]. intros ->. destruct (proj1 A eq_refl) as [_ B]. destruct B. constructor.
    + intros v Ev. injection Ev as <-. eapply slot_length; [apply (tk_len _ _ _ T)|lia].
  - split; [|discriminate]. split; [|reflexivity]. intros _. destruct (Nat.eq_dec j m) as [|Hne]; [assumption|exfalso].
    assert (X : false = true); [|discriminate]. apply A. split; [apply leaf_exists; assumption|]. intros An. apply Hne.
    symmetry. apply (leaf_not_ancestor N (zeros ss) HL ltac:(unfold zeros; rewrite repeat_length; exact Hss) m j); assumption.
Qed.
Lemma builtin_tree I : builtin I -> leaves_ok (num_parties I) /\ wide (num_parties I) /\ 1 <= seed_size I <= 32.
Proof.
  intros HI. apply builtin_facts in HI. destruct HI as (_ & A & B & (k & C & D) & _). rewrite D.
  split; [|split].
  - assert (2 ^ 4 <= 2 ^ k <= 2 ^ 8) as [X Y] by (split; apply Nat.pow_le_mono_r; lia). cbn in X, Y. split; lia.
  - unfold wide, depth. rewrite Nat.log2_up_pow2 by lia. pose proof (pow_pos k). lia.
  - destruct A as [(_ & A & _)|[(_ & A & _)|(_ & A & _)]]; lia.
Qed.
Lemma reconstruct H salt rep seed N t i : leaves_ok N -> 1 <= length seed <= 32 -> seed_tree H salt rep seed N = Ok t -> i < N ->
  exists rl t', reveal_all_but t i = Ok rl /\ seed_tree_rev H salt rep rl N = Ok t' /\
    forall j, j < N -> get_leaf t j = Ok (Some (leaf_seed H salt rep seed N j)) /\
      get_leaf t' j = if j =? i then Ok None else get_leaf t j.
Proof.
  intros HL Hss E Hi. pose proof (tree_wide _ _ _ _ _ _ HL Hss E) as Hw.
  destruct (roundtrip H salt rep N seed HL Hss Hw i Hi) as (t0 & en & t' & E1 & E2 & E3 & _ & _ & _ & G1 & G2 & _).
  rewrite E in E1. injection E1 as <-. exists (en, i), t'. split; [exact E2|]. split; [exact E3|]. intros j Hj.
  rewrite (G1 j Hj), (G2 j Hj). split; [reflexivity|]. destruct (j =? i); reflexivity.
Qed.
Lemma reveal_hides H salt rep seed N t i : leaves_ok N -> 1 <= length seed <= 32 -> seed_tree H salt rep seed N = Ok t -> i < N ->
  exists entries t', reveal_all_but t i = Ok (entries, i) /\ seed_tree_rev H salt rep (entries, i) N = Ok t' /\
    get_leaf t' i = Ok None /\ (forall n, ancestor n (first_leaf N + i) -> flag (t_has t') n = false) /\
    (forall v : bytes, In v entries -> v = zeros (length seed) \/
       exists n, ~ ancestor n (first_leaf N + i) /\ v = node_seed H salt rep seed n).
Proof.
  intros HL Hss E Hi. pose proof (tree_wide _ _ _ _ _ _ HL Hss E) as Hw.
  destruct (roundtrip H salt rep N seed HL Hss Hw i Hi) as (t0 & en & t' & E1 & E2 & E3 & _ & _ & _ & G1 & G2 & G3 & G4).
  rewrite E in E1. injection E1 as <-. exists en, t'. rewrite (G2 i Hi), Nat.eqb_refl. auto.
Qed.
Lemma reveal_size H salt rep seed N t i : leaves_ok N -> 1 <= length seed <= 32 -> seed_tree H salt rep seed N = Ok t -> i < N ->
  exists entries, reveal_all_but t i = Ok (entries, i) /\ length entries = ceil_log2_nat N /\
    forall v : bytes, In v entries -> length v = length seed.
Proof.
  intros HL Hss E Hi. pose proof (tree_wide _ _ _ _ _ _ HL Hss E) as Hw. pose proof HL as [H2 H3].
  destruct (roundtrip H salt rep N seed HL Hss Hw i Hi) as (t0 & en & t' & E1 & E2 & E3 & [A B] & _).
  rewrite E in E1. injection E1 as <-. exists en. rewrite ceil_log2_depth by lia. auto.
Qed.
Lemma hidden_free H salt rep seed N i x : leaves_ok N -> (N.of_nat N <= 32768)%N -> 1 <= length seed <= 32 ->
  (exists t, seed_tree H salt rep seed N = Ok t) -> i < N -> length x = length seed -> is_bytes x ->
  exists H' t t' rl, seed_tree H salt rep seed N = Ok t /\ seed_tree H' salt rep seed N = Ok t' /\
    reveal_all_but t i = Ok rl /\ reveal_all_but t' i = Ok rl /\
    get_leaf t' i = Ok (Some x) /\ (forall j, j < N -> j <> i -> get_leaf t' j = get_leaf t j).
Proof.
  intros HL HM Hss [t0 E] Hi Lx Bx. pose proof (tree_wide _ _ _ _ _ _ HL Hss E) as Hw. pose proof HL as [H2 _].
  assert (P : (N.of_nat (2 ^ depth N) <= 65536)%N).
  { assert (D : depth N <= 15). { unfold depth. rewrite log2_up_N. pose proof (N.log2_up_le_mono _ _ HM) as M. change (N.log2_up 32768) with 15%N in M. lia. }
    rewrite Nat2N.inj_pow. change 65536%N with (2 ^ 16)%N. apply N.pow_le_mono_r; [discriminate|lia]. }
  destruct (hidden_leaf_free H salt rep N seed i x HL Hss Hw Hi (conj Lx Bx) P) as (t & t' & en & A).
  exists (reprogram H salt rep N seed i x), t, t', (en, i). exact A.
Qed.
