(** Correctness of the polynomial functions over any field in which x + x = 0. *)
From Coq Require Import Arith NArith List Bool Lia Field.
From Verif Require Import Prelude PolyModel.
Import ListNotations.

Lemma foldM_app {A S} (f : S -> A -> res S) l1 l2 s :
  foldM f (l1 ++ l2) s = bind (foldM f l1 s) (foldM f l2).
Proof.
  revert s; induction l1; intros s; simpl; auto.
  destruct (f s a); simpl; auto.
Qed.

(** invariant rule for loops over seq *)
Lemma foldM_seq_inv {S} (f : S -> nat -> res S) (P : nat -> S -> Prop) a n s :
  P a s ->
  (forall i s, a <= i < a + n -> P i s -> exists s', f s i = Ok s' /\ P (Datatypes.S i) s') ->
  exists s', foldM f (seq a n) s = Ok s' /\ P (a + n) s'.
Proof.
  revert a s; induction n; intros a s H0 Hs; simpl.
  - exists s. rewrite Nat.add_0_r. auto.
  - destruct (Hs a s) as [s' [E H']]; auto; [lia|]. rewrite E. simpl.
    destruct (IHn (Datatypes.S a) s') as [s'' [E' H'']]; auto.
    + intros. apply Hs; auto. lia.
    + exists s''. split; auto. replace (a + Datatypes.S n) with (Datatypes.S a + n) by lia. auto.
Qed.

Lemma foldM_ok_eq {S} (f : S -> nat -> res S) (g : S -> nat -> S) l s :
  (forall s i, In i l -> f s i = Ok (g s i)) -> foldM f l s = Ok (fold_left g l s).
Proof.
  revert s; induction l; intros s H; simpl; auto.
  rewrite H by (left; auto). simpl. apply IHl. intros; apply H; right; auto.
Qed.

Section Theory.
Context {F : Type} (O : fops F).
Notation zero := (f0 O).
Notation one := (f1 O).
Notation "a + b" := (fadd O a b).
Notation "a * b" := (fmul O a b).

(** multiplicative inverse as a total function, and the field laws (x + x = 0) *)
Context (inv : F -> F).
Definition id_opp (x : F) := x.
Definition add_sub (x y : F) := x + y.
Definition fdiv (x y : F) := x * inv y.
Context (FT : field_theory zero one (fadd O) (fmul O) add_sub id_opp fdiv inv (@eq F)).
Context (INV : forall x, x <> zero -> finv O x = Ok (inv x)).
Add Field Ffield : FT.


Lemma add_self x : x + x = zero.
Proof. exact (Ropp_def (F_R FT) x). Qed.
Lemma add_eq0 x y : x + y = zero -> x = y.
Proof. intros H. transitivity (x + (y + y)). { rewrite add_self. ring. } transitivity ((x + y) + y). ring. rewrite H. ring. Qed.
Lemma mul_eq0 x y : x * y = zero -> x <> zero -> y = zero.
Proof.
  intros H Hx. transitivity ((inv x * x) * y).
  - rewrite (Finv_l FT x Hx). ring.
  - transitivity (inv x * (x * y)); [ring|]. rewrite H. ring.
Qed.
Lemma one_neq0 : one <> zero.
Proof. exact (F_1_neq_0 FT). Qed.

(** ** Evaluation *)
Fixpoint peval (p : list F) (x : F) : F :=
  match p with [] => zero | a :: p' => a + x * peval p' x end.

Lemma eval_peval p x : eval O p x = peval p x.
Proof.
  unfold eval. rewrite <- fold_left_rev_right, rev_involutive.
  induction p; simpl; auto. rewrite IHp. ring.
Qed.

Fixpoint fpow (x : F) (n : nat) : F := match n with 0 => one | S n' => x * fpow x n' end.

Lemma peval_app p q x : peval (p ++ q) x = peval p x + fpow x (length p) * peval q x.
Proof. induction p; simpl; [ring|]. rewrite IHp. ring. Qed.
Lemma zip_add_length a b : length (zip_add O a b) = Nat.min (length a) (length b).
Proof. revert b; induction a; destruct b; simpl; auto. Qed.
Lemma peval_zip_add a b x : length a = length b -> peval (zip_add O a b) x = peval a x + peval b x.
Proof.
  revert b; induction a; destruct b; simpl; intros H; try discriminate; [ring|].
  rewrite IHa by lia. ring.
Qed.
Lemma peval_vscale p s x : peval (vscale O p s) x = peval p x * s.
Proof. unfold vscale. induction p; simpl; [ring|]. rewrite IHp. ring. Qed.
Lemma peval_repeat0 n x : peval (repeat zero n) x = zero.
Proof. induction n; simpl; auto. rewrite IHn. ring. Qed.
Lemma vscale_length p s : length (vscale O p s) = length p.
Proof. apply map_length. Qed.
Lemma nth_zip_add a b i d : length a = length b -> i < length a ->
  nth i (zip_add O a b) d = nth i a d + nth i b d.
Proof.
  revert b i; induction a; destruct b; simpl; intros i H Hi; try lia.
  destruct i; auto. apply IHa; lia.
Qed.
Lemma zip_add_comm a b : zip_add O a b = zip_add O b a.
Proof. revert b; induction a; destruct b; simpl; auto. rewrite IHa. f_equal. ring. Qed.
Lemma zip_add_assoc a b c : zip_add O (zip_add O a b) c = zip_add O a (zip_add O b c).
Proof. revert b c; induction a; destruct b, c; simpl; auto. rewrite IHa. f_equal. ring. Qed.

(** ** build_from_roots *)
Lemma get_nth (l : list F) i : i < length l -> get l i = Ok (nth i l zero).
Proof. apply get_ok. Qed.
Lemma set_ok (l : list F) i x : i < length l -> set l i x = Ok (upd l i x).
Proof. intros H. unfold set. apply Nat.ltb_lt in H. rewrite H. reflexivity. Qed.

Lemma roots_inner_ok k tmp poly : k <= length poly ->
  exists poly', roots_inner O k tmp poly = Ok poly' /\ length poly' = length poly /\
    forall i, nth i poly' zero =
      if (1 <=? i) && (i <? k) then nth i poly zero * tmp + nth (i - 1) poly zero else nth i poly zero.
Proof.
  unfold roots_inner. destruct k as [|k].
  { intros _. exists poly. split; [reflexivity|]. split; auto. intros i.
    destruct (Nat.leb_spec 1 i), (Nat.ltb_spec i 0); auto; lia. }
  replace (S k - 1) with k by lia.
  revert poly. induction k; intros poly Hk.
  - exists poly. split; [reflexivity|]. split; auto. intros i.
    destruct (Nat.leb_spec 1 i), (Nat.ltb_spec i 1); auto; lia.
  - rewrite seq_S, rev_app_distr. change (rev [(1 + k)%nat]) with [S k]. cbn [app foldM].
    rewrite get_nth by lia. cbn [bind]. rewrite get_nth by lia. cbn [bind].
    replace (S k - 1) with k by lia.
    rewrite set_ok by lia. cbn [bind].
    set (poly1 := upd poly (S k) _).
    destruct (IHk poly1) as [poly' [E [L H]]].
    { unfold poly1. rewrite upd_length. lia. }
    exists poly'. split; auto. split.
    { rewrite L. apply upd_length. }
    intros i. rewrite H. unfold poly1. rewrite !nth_upd.
    destruct (Nat.leb_spec 1 i); cbn [andb].
    + destruct (Nat.ltb_spec i (S k)).
      * destruct (Nat.ltb_spec i (S (S k))); [|lia].
        destruct (Nat.eqb_spec i (S k)); [lia|].
        destruct (Nat.eqb_spec (i - 1) (S k)); [lia|]. reflexivity.
      * destruct (Nat.ltb_spec i (S (S k))).
        -- assert (i = S k) by lia. subst i. rewrite Nat.eqb_refl.
           destruct (Nat.ltb_spec (S k) (length poly)); [|lia]. simpl.
           replace (k - 0) with k by lia. reflexivity.
        -- destruct (Nat.eqb_spec i (S k)); [lia|]. reflexivity.
    + destruct (Nat.eqb_spec i (S k)); [lia|]. reflexivity.
Qed.

(** lower coefficients of (X + t) * (X^k + c), where k = length c *)
Definition mul_root (c : list F) (t : F) : list F :=
  zip_add O (vscale O (c ++ [one]) t) (zero :: c).
Lemma mul_root_length c t : length (mul_root c t) = S (length c).
Proof. unfold mul_root. rewrite zip_add_length, vscale_length, app_length. simpl. lia. Qed.
Lemma peval_mul_root c t x :
  peval (mul_root c t ++ [one]) x = (x + t) * peval (c ++ [one]) x.
Proof.
  rewrite peval_app, mul_root_length. unfold mul_root.
  rewrite peval_zip_add.
  2:{ rewrite vscale_length, app_length. simpl. lia. }
  rewrite peval_vscale, peval_app. simpl. ring.
Qed.
Lemma nth_vscale p s i : nth i (vscale O p s) zero = nth i p zero * s.
Proof.
  unfold vscale. rewrite <- (map_nth (fun x => x * s) p zero i).
  destruct (Nat.lt_ge_cases i (length p)).
  - apply nth_indep. rewrite map_length. auto.
  - rewrite !nth_overflow; rewrite ?map_length; auto. ring.
Qed.
Lemma nth_mul_root c t i : i <= length c ->
  nth i (mul_root c t) zero =
  (if i <? length c then nth i c zero else one) * t + (if 1 <=? i then nth (i - 1) c zero else zero).
Proof.
  intros Hi. unfold mul_root. rewrite nth_zip_add.
  2:{ rewrite vscale_length, app_length. simpl. lia. }
  2:{ rewrite vscale_length, app_length. simpl. lia. }
  rewrite nth_vscale. f_equal.
  - f_equal. destruct (Nat.ltb_spec i (length c)).
    + apply app_nth1; auto.
    + rewrite app_nth2 by auto. replace (i - length c) with 0 by lia. reflexivity.
  - destruct i; simpl; auto. rewrite Nat.sub_0_r. reflexivity.
Qed.

(** product of (x + r) over the roots: the specification *)
Fixpoint prod_roots (roots : list F) (x : F) : F :=
  match roots with [] => one | r :: rs => (x + r) * prod_roots rs x end.
Lemma prod_roots_app a b x : prod_roots (a ++ b) x = prod_roots a x * prod_roots b x.
Proof. induction a; simpl; [ring|]. rewrite IHa. ring. Qed.

Theorem build_from_roots_ok roots :
  exists low, build_from_roots O roots = Ok (low ++ [one]) /\ length low = length roots /\
    forall x, peval (low ++ [one]) x = prod_roots roots x.
Proof.
  unfold build_from_roots.
  destruct roots as [|r0 rs].
  { exists []. simpl. split; auto. split; auto. intros. simpl. ring. }
  set (roots := r0 :: rs). set (len := length roots).
  assert (Hlen : 1 <= len) by (unfold len, roots; simpl; lia).
  set (P := fun k (poly : list F) => exists low,
     poly = low ++ skipn k roots ++ [zero] /\ length low = k /\
     forall x, peval (low ++ [one]) x = prod_roots (firstn k roots) x).
  assert (P1 : P 1 (roots ++ [zero])).
  { exists [r0]. unfold roots. simpl. split; auto. split; auto. intros. ring. }
  clearbody roots.
  match goal with |- context [foldM ?f (seq 1 (len - 1)) ?s] =>
    destruct (foldM_seq_inv f P 1 (len - 1) s) as [poly [E HP]]; auto end.
  - intros k poly Hk [low [Hpoly [Hlow Hev]]].
    assert (Hpl : length poly = S len).
    { subst poly. rewrite !app_length, skipn_length. simpl. fold len. lia. }
    assert (Hsk : skipn k roots = nth k roots zero :: skipn (S k) roots).
    { assert (Hk' : k < length roots) by (change (k < len); lia). clear - Hk'.
      revert k Hk'. generalize roots. induction roots0; simpl; intros; [lia|].
      destruct k; simpl; auto. apply IHroots0. lia. }
    assert (Htmp : nth k poly zero = nth k roots zero).
    { subst poly. rewrite app_nth2 by lia. rewrite Hlow, Nat.sub_diag, Hsk. reflexivity. }
    assert (Hpm : forall i, i < k -> nth i poly zero = nth i low zero).
    { intros i Hi. subst poly. apply app_nth1. lia. }
    rewrite get_nth by lia. cbn [bind]. rewrite get_nth by lia. cbn [bind].
    rewrite set_ok by lia. cbn [bind].
    set (poly1 := upd poly k _).
    assert (L1 : length poly1 = S len) by (unfold poly1; rewrite upd_length; auto).
    destruct (roots_inner_ok k (nth k poly zero) poly1) as [poly2 [E2 [L2 H2]]]; [lia|].
    rewrite E2. cbn [bind]. rewrite get_nth by lia. cbn [bind]. rewrite set_ok by lia.
    eexists. split; [reflexivity|].
    set (t := nth k roots zero).
    exists (mul_root low t). split; [|split].
    + apply nth_ext with (d := zero) (d' := zero).
      { rewrite upd_length, !app_length, mul_root_length, skipn_length. simpl. fold len. lia. }
      rewrite upd_length. intros i Hi.
      rewrite nth_upd, !H2. unfold poly1. rewrite !nth_upd.
      fold poly1. rewrite L2, L1, Htmp, Hpl. fold t.
      destruct (Nat.lt_ge_cases i (S k)) as [Hik|Hik].
      * rewrite (app_nth1 (mul_root low t)) by (rewrite mul_root_length; lia).
        rewrite nth_mul_root by lia. rewrite Hlow.
        destruct (Nat.eqb_spec i 0) as [->|Hi0].
        -- destruct (Nat.ltb_spec 0 (S len)); [|lia]. cbn [andb Nat.leb].
           destruct (Nat.eqb_spec 0 k); [lia|].
           destruct (Nat.ltb_spec 0 k); [|lia]. cbn [andb].
           rewrite (Hpm 0) by lia. ring.
        -- cbn [andb]. destruct (Nat.leb_spec 1 i); [|lia]. cbn [andb].
           destruct (Nat.ltb_spec i k).
           ++ destruct (Nat.eqb_spec i k); [lia|]. destruct (Nat.eqb_spec (i - 1) k); [lia|].
              cbn [andb]. rewrite !Hpm by lia. reflexivity.
           ++ assert (i = k) by lia. subst i. rewrite Nat.eqb_refl.
              destruct (Nat.ltb_spec k (S len)); [|lia]. cbn [andb].
              rewrite Hpm by lia. ring.
      * rewrite (app_nth2 (mul_root low t)) by (rewrite mul_root_length; lia).
        rewrite mul_root_length, Hlow.
        destruct (Nat.eqb_spec i 0); [lia|]. cbn [andb].
        destruct (Nat.ltb_spec i k); [lia|]. rewrite andb_false_r.
        destruct (Nat.eqb_spec i k); [lia|]. cbn [andb].
        subst poly. rewrite app_nth2 by lia. rewrite Hlow, Hsk. cbn [app].
        replace (i - k) with (S (i - S k)) by lia. reflexivity.
    + rewrite mul_root_length. lia.
    + intros x. rewrite peval_mul_root, Hev.
      assert (Hf : firstn (S k) roots = firstn k roots ++ [t]).
      { unfold t. assert (Hk' : k < length roots) by (change (k < len); lia). clear - Hk'.
        revert k Hk'. generalize roots. induction roots0; simpl; intros; [lia|].
        destruct k; simpl; auto. f_equal. apply IHroots0. lia. }
      rewrite Hf, prod_roots_app. simpl. ring.
  - rewrite E. cbn [bind].
    replace (1 + (len - 1))%nat with len in HP by lia.
    destruct HP as [low [Hp [Hl Hev]]].
    unfold len in Hp. rewrite skipn_all in Hp. cbn [app] in Hp.
    exists low. split; [|split; auto].
    + rewrite set_ok by (subst poly; rewrite app_length; simpl; lia).
      f_equal. subst poly. rewrite <- Hl. clear.
      generalize low. induction low0; simpl; auto. f_equal; auto.
    + intros x. rewrite Hev. f_equal. apply firstn_all.
Qed.

(** ** Lagrange basis *)
Lemma prod_roots_zero roots x : In x roots -> prod_roots roots x = zero.
Proof.
  induction roots; simpl; intros H; [tauto|]. destruct H as [->|H].
  - rewrite add_self. ring.
  - rewrite IHroots by auto. ring.
Qed.
Lemma prod_roots_neq0 roots x : ~ In x roots -> prod_roots roots x <> zero.
Proof.
  induction roots; simpl; intros H.
  - apply one_neq0.
  - intros E. apply IHroots; [tauto|]. apply (mul_eq0 (x + a)); auto.
    intros E'. apply H. left. apply add_eq0 in E'. auto.
Qed.

Definition except (k : nat) (l : list F) : list F := firstn k l ++ skipn (S k) l.

Lemma denominators_ok xs k : k < length xs ->
  foldM (fun st j =>
          let '(denominator, x_except_k) := st in
          if negb (k =? j) then
            do xk <- get xs k;
            do xj <- get xs j;
            Ok (denominator * (xk + xj), x_except_k ++ [xj])
          else Ok st)
        (seq 0 (length xs)) (one, [])
  = Ok (prod_roots (except k xs) (nth k xs zero), except k xs).
Proof.
  intros Hk. set (xk := nth k xs zero).
  set (P := fun j (st : F * list F) =>
     st = let l := if j <=? k then firstn j xs else firstn k xs ++ firstn (j - S k) (skipn (S k) xs) in
          (prod_roots l xk, l)).
  match goal with |- foldM ?f _ _ = _ =>
    destruct (foldM_seq_inv f P 0 (length xs) (one, [])) as [st [E H]] end.
  - unfold P. simpl. reflexivity.
  - intros j st Hj HP. unfold P in HP. subst st.
    assert (Hx : forall (l : list F) i, i < length l -> firstn (S i) l = firstn i l ++ [nth i l zero]).
    { clear. induction l; simpl; intros; [lia|]. destruct i; simpl; auto. f_equal. apply IHl. lia. }
    destruct (Nat.eqb_spec k j) as [->|Hne]; cbn [negb].
    + eexists. split; [reflexivity|]. unfold P. rewrite Nat.leb_refl.
      destruct (Nat.leb_spec (S j) j); [lia|]. replace (S j - S j) with 0 by lia. simpl.
      rewrite app_nil_r. reflexivity.
    + rewrite !get_nth by lia. cbn [bind]. eexists. split; [reflexivity|].
      unfold P. fold xk.
      destruct (Nat.leb_spec j k); destruct (Nat.leb_spec (S j) k); try lia.
      * rewrite Hx by lia. cbv zeta. rewrite prod_roots_app. simpl. f_equal. ring.
      * replace (S j - S k) with (S (j - S k)) by lia.
        rewrite Hx by (rewrite skipn_length; lia).
        assert (Hn : nth (j - S k) (skipn (S k) xs) zero = nth j xs zero).
        { rewrite <- (firstn_skipn (S k) xs) at 2. rewrite app_nth2; rewrite firstn_length; [|lia].
          f_equal. lia. }
        rewrite Hn. cbv zeta. rewrite app_assoc, (prod_roots_app (_ ++ _) [_]). simpl. f_equal. ring.
  - rewrite E. unfold P in H. cbn [Nat.add] in H.
    destruct (Nat.leb_spec (length xs) k); [lia|].
    rewrite (firstn_all2 (skipn (S k) xs)) in H by (rewrite skipn_length; lia). rewrite H. reflexivity.
Qed.

Lemma in_except k l x : In x (except k l) -> In x l.
Proof.
  unfold except. intros H. apply in_app_or in H. destruct H as [H|H].
  - rewrite <- (firstn_skipn k l). apply in_or_app; auto.
  - rewrite <- (firstn_skipn (S k) l). apply in_or_app; auto.
Qed.
Lemma except_split k (l : list F) : k < length l -> l = firstn k l ++ nth k l zero :: skipn (S k) l.
Proof.
  revert k; induction l; simpl; intros; [lia|]. destruct k; simpl; auto. f_equal. apply IHl. lia.
Qed.
Lemma not_in_except k l : NoDup l -> k < length l -> ~ In (nth k l zero) (except k l).
Proof.
  intros ND Hk. rewrite (except_split k l Hk) in ND at 1. apply NoDup_remove_2 in ND. exact ND.
Qed.
Lemma in_except_other k j l : j <> k -> j < length l -> In (nth j l zero) (except k l).
Proof.
  intros Hne Hj. unfold except. apply in_or_app.
  destruct (Nat.lt_ge_cases j k).
  - left. rewrite <- (firstn_skipn k l) at 1. rewrite app_nth1 by (rewrite firstn_length; lia).
    apply nth_In. rewrite firstn_length. lia.
  - right. destruct (Nat.lt_ge_cases k (length l)); [|lia].
    rewrite <- (firstn_skipn (S k) l) at 1. rewrite app_nth2; rewrite firstn_length; [|lia].
    apply nth_In. rewrite skipn_length. lia.
Qed.
Lemma except_length k (l : list F) : k < length l -> length (except k l) = length l - 1.
Proof. intros. unfold except. rewrite app_length, firstn_length, skipn_length. lia. Qed.

(** the k-th Lagrange polynomial as a function: prod_{j<>k} (x + x_j) / (x_k + x_j) *)
Definition lagrange_at (xs : list F) (k : nat) (x : F) : F :=
  prod_roots (except k xs) x * inv (prod_roots (except k xs) (nth k xs zero)).

Theorem precompute_ok xs : NoDup xs ->
  exists pre, precompute_lagrange_polynomials O xs = Ok pre /\ length pre = length xs /\
    forall k, k < length xs -> length (nth k pre []) = length xs /\
      forall x, peval (nth k pre []) x = lagrange_at xs k x.
Proof.
  intros ND. unfold precompute_lagrange_polynomials.
  assert (H : exists g : nat -> list F, forall k, In k (seq 0 (length xs)) ->
     (do den_except <- foldM (fun st j =>
          let '(denominator, x_except_k) := st in
          if negb (k =? j) then
            do xk <- get xs k;
            do xj <- get xs j;
            Ok (denominator * (xk + xj), x_except_k ++ [xj])
          else Ok st)
        (seq 0 (length xs)) (one, []);
      let '(denominator, x_except_k) := den_except in
      do numerator <- build_from_roots O x_except_k;
      do dinv <- finv O denominator;
      Ok (vscale O numerator dinv)) = Ok (g k) /\ length (g k) = length xs /\
      forall x, peval (g k) x = lagrange_at xs k x).
  { exists (fun k => match build_from_roots O (except k xs) with
                     | Ok p => vscale O p (inv (prod_roots (except k xs) (nth k xs zero)))
                     | _ => [] end).
    intros k Hk. apply in_seq in Hk.
    rewrite denominators_ok by lia. cbn [bind].
    destruct (build_from_roots_ok (except k xs)) as [low [E [L Hev]]].
    rewrite E. cbn [bind]. rewrite INV.
    2:{ apply prod_roots_neq0. apply not_in_except; auto; lia. }
    cbn [bind]. split; auto. split.
    - rewrite vscale_length, app_length, L, except_length by lia. simpl. lia.
    - intros x. rewrite peval_vscale, Hev. reflexivity. }
  destruct H as [g Hg].
  exists (map g (seq 0 (length xs))). split; [|split].
  - apply mapM_ok. intros k Hk. apply Hg; auto.
  - rewrite map_length, seq_length. reflexivity.
  - intros k Hk.
    assert (E : nth k (map g (seq 0 (length xs))) [] = g k).
    { rewrite nth_indep with (d' := g 0) by (rewrite map_length, seq_length; auto).
      rewrite map_nth, seq_nth by auto. reflexivity. }
    rewrite E. apply Hg. apply in_seq. lia.
Qed.

Lemma lagrange_delta xs k j : NoDup xs -> k < length xs -> j < length xs ->
  lagrange_at xs k (nth j xs zero) = if j =? k then one else zero.
Proof.
  intros ND Hk Hj. unfold lagrange_at. destruct (Nat.eqb_spec j k) as [->|Hne].
  - field. apply prod_roots_neq0, not_in_except; auto.
  - rewrite prod_roots_zero by (apply in_except_other; auto). ring.
Qed.

Lemma lagrange_neq0 xs k x : ~ In x (except k xs) -> NoDup xs -> k < length xs -> lagrange_at xs k x <> zero.
Proof.
  intros H ND Hk E. unfold lagrange_at in E.
  assert (Hd : prod_roots (except k xs) (nth k xs zero) <> zero) by (apply prod_roots_neq0, not_in_except; auto).
  apply mul_eq0 in E; [|apply prod_roots_neq0; auto].
  apply one_neq0. rewrite <- (Finv_l FT _ Hd). rewrite E. ring.
Qed.

(** ** Uniqueness: a polynomial with as many roots as coefficients is zero *)
Fixpoint suffix_evals (p : list F) (a : F) : list F :=
  match p with [] => [] | _ :: p' => peval p a :: suffix_evals p' a end.
Lemma suffix_evals_length p a : length (suffix_evals p a) = length p.
Proof. induction p; simpl; auto. Qed.
Lemma division p a x :
  peval p x = peval p a + (x + a) * peval (tl (suffix_evals p a)) x.
Proof.
  induction p as [|c p IH]; simpl; [ring|].
  destruct p as [|c' p']; [simpl; ring|].
  assert (E : suffix_evals (c' :: p') a = peval (c' :: p') a :: tl (suffix_evals (c' :: p') a)) by reflexivity.
  rewrite E. change (peval (peval (c' :: p') a :: ?t) x) with (peval (c' :: p') a + x * peval t x).
  rewrite IH.
  set (Q := peval (tl (suffix_evals (c' :: p') a)) x). set (Pa := peval (c' :: p') a).
  transitivity (c + (a + (x + a)) * Pa + x * ((x + a) * Q)).
  - assert (E2 : a + (x + a) = x). { transitivity (x + (a + a)); [ring|]. rewrite add_self. ring. }
    rewrite E2. ring.
  - ring.
Qed.

Lemma suffix_zero p a : Forall (eq zero) (suffix_evals p a) -> Forall (eq zero) p.
Proof.
  induction p as [|c p IH]; intros H; [constructor|].
  cbn [suffix_evals] in H. apply Forall_cons_iff in H. destruct H as [H2 H3].
  constructor; [|auto].
  destruct p as [|c' p'].
  - rewrite H2. simpl. ring.
  - cbn [suffix_evals] in H3. apply Forall_cons_iff in H3. destruct H3 as [H3 _].
    rewrite H2. change (peval (c :: c' :: p') a) with (c + a * peval (c' :: p') a).
    rewrite <- H3. ring.
Qed.

Lemma roots_zero (xs : list F) : forall p, NoDup xs -> length p <= length xs ->
  (forall x, In x xs -> peval p x = zero) -> Forall (eq zero) p.
Proof.
  induction xs as [|a xs IH]; intros p ND Hl Hr.
  - destruct p; [constructor|simpl in Hl; lia].
  - destruct p as [|c p]; [constructor|].
    apply (suffix_zero _ a). cbn [suffix_evals]. constructor.
    { symmetry. apply Hr. left; auto. }
    inversion ND; subst.
    apply IH; auto.
    { rewrite suffix_evals_length. simpl in Hl. lia. }
    intros x Hx.
    pose proof (division (c :: p) a x) as D.
    rewrite (Hr x), (Hr a) in D by (simpl; auto). cbn [suffix_evals tl] in D.
    apply (mul_eq0 (x + a)).
    + transitivity (zero + (x + a) * peval (suffix_evals p a) x); [ring|]. auto.
    + intros E. apply add_eq0 in E. subst. auto.
Qed.

Theorem peval_unique xs p r : NoDup xs -> length p = length r -> length p <= length xs ->
  (forall x, In x xs -> peval p x = peval r x) -> p = r.
Proof.
  intros ND Hl Hx H.
  assert (Z : Forall (eq zero) (zip_add O p r)).
  { apply (roots_zero xs); auto.
    - rewrite zip_add_length. lia.
    - intros x Hx'. rewrite peval_zip_add by auto. rewrite H by auto. apply add_self. }
  clear ND Hx H. revert r Hl Z. induction p; destruct r; simpl; intros; try discriminate; auto.
  inversion Z; subst. f_equal.
  - apply add_eq0; auto.
  - apply IHp; auto.
Qed.

(** ** Interpolation *)
Fixpoint sum_k (n : nat) (g : nat -> F) : F :=
  match n with 0 => zero | S n' => sum_k n' g + g n' end.
Lemma sum_k_ext n g h : (forall k, k < n -> g k = h k) -> sum_k n g = sum_k n h.
Proof. induction n; simpl; intros H; auto. rewrite IHn, H; auto. Qed.
Lemma sum_k_delta n j v : j < n -> sum_k n (fun k => (if j =? k then one else zero) * v k) = v j.
Proof.
  induction n; intros Hj; [lia|]. simpl. destruct (Nat.eqb_spec j n) as [->|Hne].
  - assert (E : sum_k n (fun k => (if n =? k then one else zero) * v k) = zero).
    { assert (G : forall m, m <= n -> sum_k m (fun k => (if n =? k then one else zero) * v k) = zero).
      { induction m; simpl; intros; auto. destruct (Nat.eqb_spec n m); [lia|]. rewrite IHm by lia. ring. }
      apply G; auto. }
    rewrite E. ring.
  - rewrite IHn by lia. ring.
Qed.

Theorem interpolate_ok xs ys : NoDup xs -> length ys = length xs -> 0 < length xs ->
  exists pre p,
    precompute_lagrange_polynomials O xs = Ok pre /\
    interpolate_with_precomputation O pre ys = Ok p /\ length p = length xs /\
    (forall k, k < length xs -> peval p (nth k xs zero) = nth k ys zero) /\
    (forall x, peval p x = sum_k (length xs) (fun k => lagrange_at xs k x * nth k ys zero)).
Proof.
  intros ND HL Hpos.
  destruct (precompute_ok xs ND) as [pre [Ep [Lp Hp]]].
  exists pre. unfold interpolate_with_precomputation.
  rewrite Lp, HL, Nat.eqb_refl. cbn [negb orb].
  destruct (Nat.eqb_spec (length xs) 0); [lia|].
  rewrite (get_ok pre 0 []) by lia. cbn [bind].
  destruct (Hp 0 Hpos) as [L0 _]. rewrite L0.
  set (P := fun k (r : list F) => length r = length xs /\
     forall x, peval r x = sum_k k (fun k => lagrange_at xs k x * nth k ys zero)).
  match goal with |- context [foldM ?f (seq 0 (length xs)) ?s] =>
    destruct (foldM_seq_inv f P 0 (length xs) s) as [p [E HP]] end.
  - split; [apply repeat_length|]. intros. apply peval_repeat0.
  - intros k r Hk [Hr Hev]. rewrite (get_ok pre k []) by lia. cbn [bind].
    rewrite get_nth by lia. cbn [bind]. unfold vadd.
    destruct (Hp k) as [Lk Hk']; [lia|].
    rewrite vscale_length, Hr, Lk, Nat.eqb_refl. cbn [negb].
    eexists. split; [reflexivity|]. split.
    + rewrite zip_add_length, vscale_length. lia.
    + intros x. rewrite peval_zip_add by (rewrite vscale_length; lia).
      rewrite peval_vscale, Hev, Hk'. simpl. ring.
  - exists p. destruct HP as [HPl HPe]. cbn [Nat.add] in *.
    split; auto. split; auto. split; auto. split; auto.
    intros k Hk. rewrite HPe.
    rewrite (sum_k_ext _ _ (fun j => (if k =? j then one else zero) * nth j ys zero)).
    + apply sum_k_delta; auto.
    + intros j Hj. rewrite lagrange_delta by auto. reflexivity.
Qed.

(** ** Polynomial multiplication *)
Lemma peval_upd p i v x : i < length p -> peval (upd p i (nth i p zero + v)) x = peval p x + fpow x i * v.
Proof.
  revert i; induction p; simpl; intros i Hi; [lia|]. destruct i; simpl; [ring|].
  rewrite IHp by lia. ring.
Qed.
Lemma peval_firstn_S p i x : i < length p ->
  peval (firstn (S i) p) x = peval (firstn i p) x + fpow x i * nth i p zero.
Proof.
  revert i; induction p; intros i Hi; [simpl in Hi; lia|]. destruct i; simpl in *; [ring|].
  rewrite IHp by lia. simpl. ring.
Qed.
Lemma fpow_add x a b : fpow x (a + b)%nat = fpow x a * fpow x b.
Proof. induction a; simpl; [ring|]. rewrite IHa. ring. Qed.

Theorem vmul_ok p r : 0 < length p -> 0 < length r ->
  exists s, vmul O p r = Ok s /\ length s = (length p + length r - 1)%nat /\
    forall x, peval s x = peval p x * peval r x.
Proof.
  intros Hp Hr. unfold vmul.
  destruct (Nat.eqb_spec (length p) 0); [lia|]. cbn [andb].
  set (L := (length p + length r - 1)%nat).
  set (P := fun i (s : list F) => length s = L /\ forall x, peval s x = peval (firstn i p) x * peval r x).
  match goal with |- context [foldM ?f (seq 0 (length p)) ?s] =>
    destruct (foldM_seq_inv f P 0 (length p) s) as [s' [E HP]] end.
  - split; [apply repeat_length|]. intros. rewrite peval_repeat0. simpl. ring.
  - intros i s Hi [Hs Hev]. rewrite get_nth by lia. cbn [bind].
    set (Q := fun j (s' : list F) => length s' = L /\
       forall x, peval s' x = peval s x + fpow x i * nth i p zero * peval (firstn j r) x).
    match goal with |- context [foldM ?f (seq 0 (length r)) ?s] =>
      destruct (foldM_seq_inv f Q 0 (length r) s) as [s' [E HQ]] end.
    + split; auto. intros. simpl. ring.
    + intros j s0 Hj [Hs0 Hev0]. rewrite (get_nth r) by lia. cbn [bind].
      assert ((i + j)%nat < length s0) by (rewrite Hs0; unfold L; lia).
      rewrite get_nth by auto. cbn [bind]. rewrite set_ok by auto.
      eexists. split; [reflexivity|]. split; [rewrite upd_length; auto|].
      intros x. rewrite peval_upd by auto. rewrite Hev0, peval_firstn_S by lia.
      rewrite fpow_add. ring.
    + exists s'. split; auto. destruct HQ as [HQ1 HQ2]. split; auto.
      intros x. rewrite HQ2, Hev. cbn [Nat.add]. rewrite firstn_all, peval_firstn_S by lia. ring.
  - exists s'. destruct HP as [H1 H2]. split; auto. split; auto.
    intros x. rewrite H2. cbn [Nat.add]. rewrite firstn_all. reflexivity.
Qed.

Lemma vadd_ok p r : length p = length r -> vadd O p r = Ok (zip_add O p r).
Proof. intros H. unfold vadd. rewrite H, Nat.eqb_refl. reflexivity. Qed.

End Theory.
