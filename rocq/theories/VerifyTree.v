(** The seeds that verification rebuilds, in terms of the relations of SigSpec. *)
From Coq Require Import Arith NArith List Bool Lia.
From Verif Require Import Prelude HashModel TreeModel TreeSpec TreeProofs TreeExpand TreeApi TreeRev SigSpec.
Import ListNotations.

Lemma iter_r {A} i (f : A -> A) x : Nat.iter (S i) f x = Nat.iter i f (f x).
Proof. induction i; [reflexivity|]. change (f (Nat.iter (S i) f x) = f (Nat.iter i f (f x))). rewrite IHi. reflexivity. Qed.
Lemma iter_path : forall i k, i < length (path k) -> nth i (path k) 0 = Nat.iter i parent k.
Proof.
  induction i; intros k Hk; (destruct (Nat.eq_dec k 0) as [->|Hz]; [rewrite path_0 in Hk; cbn in Hk; lia|]); rewrite path_cons in Hk |- * by exact Hz; [reflexivity|].
  cbn [length nth] in *. rewrite IHi by lia. rewrite iter_r. reflexivity.
Qed.
Lemma sib_invol k : k <> 0 -> sibling (sibling k) = k.
Proof.
  intros Hk. unfold sibling. destruct (Nat.even k) eqn:E.
  - destruct k as [|k]; [lia|]. rewrite Nat.even_succ in E. unfold Nat.odd in E. replace (S k - 1) with k by lia. destruct (Nat.even k); [discriminate|]. lia.
  - replace (k + 1) with (S k) by lia. rewrite Nat.even_succ. unfold Nat.odd. rewrite E. cbn [negb]. lia.
Qed.
Lemma sib_parent k : k <> 0 -> sibling k <> 0 /\ sibling k <> k /\ parent (sibling k) = parent k.
Proof.
  intros Hk. unfold sibling, parent. destruct (Nat.even k) eqn:E.
  - apply Nat.even_spec in E. destruct E as [q ->]. repeat split; try lia.
    replace (2 * q - 1 - 1) with ((q - 1) * 2) by lia. replace (2 * q - 1) with (1 + (q - 1) * 2) by lia. rewrite Nat.div_mul, Nat.div_add by lia. reflexivity.
  - assert (O : Nat.odd k = true) by (unfold Nat.odd; rewrite E; reflexivity). apply Nat.odd_spec in O. destruct O as [q ->]. repeat split; try lia.
    replace (2 * q + 1 + 1 - 1) with (1 + q * 2) by lia. replace (2 * q + 1 - 1) with (q * 2) by lia. rewrite Nat.div_mul, Nat.div_add by lia. reflexivity.
Qed.
Lemma anc_trans a b k : ancestor a b -> ancestor b k -> ancestor a k.
Proof. intros A B. induction B; [exact A|]. apply anc_up; assumption. Qed.
Lemma iter_anc i : forall k, i <= length (path k) -> ancestor (Nat.iter i parent k) k.
Proof.
  induction i; intros k Hk; [constructor|]. destruct (Nat.eq_dec k 0) as [->|Hz]; [rewrite path_0 in Hk; cbn in Hk; lia|].
  rewrite path_cons in Hk by exact Hz. cbn [length] in Hk. rewrite iter_r. apply anc_up; [exact Hz|]. apply IHi. lia.
Qed.
Lemma iter_nz i k : i < length (path k) -> Nat.iter i parent k <> 0.
Proof. intros Hi. rewrite <- iter_path by exact Hi. apply (path_in k). apply nth_In. exact Hi. Qed.
Lemma iter_dec : forall i j k, i < j -> j < length (path k) -> Nat.iter j parent k < Nat.iter i parent k.
Proof.
  intros i j k Hij. induction Hij; intros Hj.
  - pose proof (iter_nz i k ltac:(lia)) as Z. cbn [Nat.iter nat_rect]. apply parent_lt. exact Z.
  - specialize (IHHij ltac:(lia)). pose proof (iter_nz m k ltac:(lia)) as Z. pose proof (parent_lt _ Z). cbn [Nat.iter nat_rect] in *. unfold Nat.iter in *. lia.
Qed.
Lemma iter_inj i j k : i < length (path k) -> j < length (path k) -> Nat.iter i parent k = Nat.iter j parent k -> i = j.
Proof.
  intros Hi Hj E. destruct (lt_eq_lt_dec i j) as [[A|A]|A]; [|exact A|]; [pose proof (iter_dec i j k A Hj)|pose proof (iter_dec j i k A Hi)]; lia.
Qed.

Lemma depth_pow N k0 : N = 2 ^ k0 -> depth N = k0.
Proof. intros ->. apply Nat.log2_up_pow2. lia. Qed.
Lemma total_pow N k0 : N = 2 ^ k0 -> first_leaf N + N = 2 * N - 1.
Proof. intros HP. unfold first_leaf. rewrite (depth_pow N k0 HP), <- HP. pose proof (Nat.pow_nonzero 2 k0). lia. Qed.

Section Tree.
Variables (H : oracle) (salt : bytes) (rep N ss m : nat) (entries : list bytes).
Hypothesis HL : leaves_ok N.
Hypothesis Hss : 1 <= ss <= 32.
Hypothesis HE : entries_ok N ss entries.
Hypothesis Hm : m < N.
Notation leaf := (first_leaf N + m).

Lemma leaf_len : length (path leaf) = depth N.
Proof. apply leaf_path_length; [apply HL|exact Hm]. Qed.
Lemma sib_of_eq i : i < depth N -> sib_of N m i = sibling (Nat.iter i parent leaf) \/ sib_of N m i = 0.
Proof.
  intros Hi. unfold sib_of, get_sibling. rewrite iter_path by (fold (first_leaf N); rewrite leaf_len; exact Hi). fold (first_leaf N). unfold sibling.
  set (a := Nat.iter i parent leaf). unfold Nat.odd. destruct (Nat.even a); cbn [negb]; [left; reflexivity|]. destruct (_ <? _); [left|right]; reflexivity.
Qed.

(** any assignment of seeds to nodes that obeys the relations gives the leaves of the rebuilt tree *)
Lemma rebuilt_leaves (xn : nat -> bytes) :
  (forall i, i < depth N -> xn (sibling (Nat.iter i parent leaf)) = nth i entries []) ->
  (forall k, 0 < k < first_leaf N + N -> ~ ancestor (parent k) leaf -> xn k = child_seed H salt rep (xn (parent k)) (parent k) (is_right k)) ->
  exists t, seed_tree_rev H salt rep (entries, m) N = Ok t /\
    forall p, p < N -> get_leaf t p = Ok (if p =? m then None else Some (xn (first_leaf N + p))) /\ (p <> m -> length (xn (first_leaf N + p)) = ss).
Proof.
  intros R1 R2. pose proof HL as [H2 _].
  destruct (seed_tree_rev_ok H salt rep N ss entries m (fun k v => ~ ancestor k leaf /\ v = xn k) HL Hss HE Hm) as (t & E & T & V).
  - intros n s Hn Hx _ [A ->]. assert (B : ~ ancestor n leaf) by (intros Y; apply A, ancestor_parent; assumption). split; [exact B|].
    symmetry. apply R2; [|exact A]. pose proof (ex_lt_total N H2 n Hx). unfold first_leaf in *. lia.
  - intros i Hi Hz Hx. destruct (sib_of_eq i Hi) as [Es|Es]; [|congruence]. rewrite Es in *. split; [|symmetry; apply R1; exact Hi].
    set (a := Nat.iter i parent leaf) in *. assert (Za : a <> 0) by (apply iter_nz; rewrite leaf_len; exact Hi).
    assert (Aa : ancestor a leaf) by (apply iter_anc; rewrite leaf_len; lia). destruct (sib_parent a Za) as (S0 & S1 & S2).
    intros Y. apply S1. exact (ancestor_siblings _ _ _ S0 Za S2 Y Aa).
  - exists t. split; [exact E|]. intros p Hp. pose proof (get_leaf_ok N (zeros ss)) as G. unfold zeros in G. rewrite repeat_length in G. rewrite (G Hss t p T Hp). clear G.
    fold (first_leaf N). destruct (V (first_leaf N + p)) as [A B].
    destruct (Nat.eqb_spec p m) as [->|Hne].
    + split; [|congruence]. destruct (flag (t_has t) leaf) eqn:F; [|reflexivity]. exfalso. apply A; [reflexivity|constructor].
    + assert (F : flag (t_has t) (first_leaf N + p) = true).
      { apply A. split; [apply leaf_exists; assumption|]. intros An. apply Hne. symmetry.
        apply (leaf_not_ancestor N (zeros ss) HL ltac:(unfold zeros; rewrite repeat_length; exact Hss) m p); assumption. }
      rewrite F. destruct (B F) as [_ Ev]. rewrite Ev. split; [reflexivity|]. intros _. rewrite <- Ev. eapply slot_length; [apply (tk_len _ _ _ T)|].
      unfold first_leaf. lia.
Qed.

(** and there is one *)
Fixpoint nv (fuel k : nat) : bytes :=
  match find (fun i => sibling (Nat.iter i parent leaf) =? k) (seq 0 (depth N)) with
  | Some i => nth i entries []
  | None => match fuel, k with S f, S _ => child_seed H salt rep (nv f (parent k)) (parent k) (is_right k) | _, _ => [] end
  end.
Lemma nv_fuel : forall f k, k <= f -> nv f k = nv k k.
Proof.
  intros f k. revert f. induction k as [k IH] using lt_wf_ind. intros f Hf. destruct k as [|k]; [destruct f; reflexivity|].
  destruct f as [|f]; [lia|]. cbn [nv]. destruct (find _ _); [reflexivity|]. pose proof (parent_lt (S k) ltac:(lia)).
  rewrite (IH (parent (S k)) ltac:(lia) f) by lia. rewrite (IH (parent (S k)) ltac:(lia) k) by lia. reflexivity.
Qed.
Lemma nv_reveal i : i < depth N -> (fun k => nv k k) (sibling (Nat.iter i parent leaf)) = nth i entries [].
Proof.
  intros Hi. cbv beta. set (k := sibling (Nat.iter i parent leaf)).
  assert (F : find (fun i => sibling (Nat.iter i parent leaf) =? k) (seq 0 (depth N)) = Some i).
  { destruct (find _ _) as [j|] eqn:F.
    - apply find_some in F. destruct F as [F1 F2]. apply in_seq in F1. apply Nat.eqb_eq in F2. f_equal.
      apply (iter_inj j i leaf); [rewrite leaf_len; lia|rewrite leaf_len; lia|].
      rewrite <- (sib_invol (Nat.iter j parent leaf)), <- (sib_invol (Nat.iter i parent leaf)) by (apply iter_nz; rewrite leaf_len; lia). f_equal. exact F2.
    - exfalso. pose proof (find_none _ _ F i ltac:(apply in_seq; lia)) as X. cbv beta in X. unfold k in X. rewrite Nat.eqb_refl in X. discriminate X. }
  generalize dependent k. intros k F. destruct k; cbn [nv]; rewrite F; reflexivity.
Qed.
Lemma nv_child k : 0 < k < first_leaf N + N -> ~ ancestor (parent k) leaf -> nv k k = child_seed H salt rep (nv (parent k) (parent k)) (parent k) (is_right k).
Proof.
  intros Hk A. destruct k as [|k]; [lia|].
  assert (F : find (fun i => sibling (Nat.iter i parent leaf) =? S k) (seq 0 (depth N)) = None).
  { destruct (find _ _) as [j|] eqn:F; [|reflexivity]. exfalso. apply find_some in F. destruct F as [F1 F2]. apply in_seq in F1. apply Nat.eqb_eq in F2. apply A.
    assert (Z : Nat.iter j parent leaf <> 0) by (apply iter_nz; rewrite leaf_len; lia). rewrite <- F2, (proj2 (proj2 (sib_parent _ Z))).
    apply ancestor_parent; [exact Z|]. apply iter_anc. rewrite leaf_len. lia. }
  cbn [nv]. rewrite F. pose proof (parent_lt (S k) ltac:(lia)). rewrite (nv_fuel k (parent (S k))) by lia. reflexivity.
Qed.
Lemma nodes_exist : exists xn : nat -> bytes,
  (forall i, i < depth N -> xn (sibling (Nat.iter i parent leaf)) = nth i entries []) /\
  (forall k, 0 < k < first_leaf N + N -> ~ ancestor (parent k) leaf -> xn k = child_seed H salt rep (xn (parent k)) (parent k) (is_right k)).
Proof. exists (fun k => nv k k). split; [exact nv_reveal|exact nv_child]. Qed.
End Tree.
