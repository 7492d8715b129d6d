(** Simulation of one computation by another, and the contents of flat containers *)
From Coq Require Import Arith NArith List Bool Lia.
From Verif Require Import Prelude ContainerModel MemModel BanquetModel.
Import ListNotations.

(** [y] ends as [x] does, with a related result; nothing is said when [x] is undefined *)
Definition sim {A B} (R : A -> B -> Prop) (x : res A) (y : res B) : Prop :=
  match x with
  | Ok a => exists b, y = Ok b /\ R a b
  | Throw e => y = Throw e
  | UB _ => True
  | OutOfFuel => y = OutOfFuel
  end.
Lemma sim_bind {A B A' B'} (R : A -> B -> Prop) (Q : A' -> B' -> Prop) x y f g :
  sim R x y -> (forall a b, x = Ok a -> R a b -> sim Q (f a) (g b)) -> sim Q (bind x f) (bind y g).
Proof.
  unfold sim at 1. destruct x as [a|e|r|]; cbn [bind]; intros S1 S2; subst; cbn; auto.
  destruct S1 as (b & -> & Rab). cbn [bind]. exact (S2 a b eq_refl Rab).
Qed.
Lemma sim_refl {A} (x : res A) : sim eq x x.
Proof. destruct x; cbn; auto. eexists; eauto. Qed.
Lemma sim_same {A A' B'} (Q : A' -> B' -> Prop) (x : res A) f g :
  (forall a, x = Ok a -> sim Q (f a) (g a)) -> sim Q (bind x f) (bind x g).
Proof. intros S. apply (sim_bind eq); [apply sim_refl|]. intros a b E <-. auto. Qed.
(** the simulated side reads more *)
Lemma sim_left {A A' B'} (Q : A' -> B' -> Prop) (x : res A) f y :
  (forall a, x = Ok a -> sim Q (f a) y) -> (forall e, x <> Throw e) -> x <> OutOfFuel -> sim Q (bind x f) y.
Proof. destruct x; cbn; intros S T F; auto; [destruct (T e)|destruct F]; reflexivity. Qed.
Lemma sim_get {A A' B'} (Q : A' -> B' -> Prop) (l : list A) i f y : (forall a, get l i = Ok a -> sim Q (f a) y) -> sim Q (bind (get l i) f) y.
Proof. intros S. apply sim_left; [exact S| |]; unfold get; destruct (nth_error l i); try intros e; discriminate. Qed.
Lemma sim_mono {A B} (R Q : A -> B -> Prop) x y : sim R x y -> (forall a b, x = Ok a -> R a b -> Q a b) -> sim Q x y.
Proof. unfold sim. destruct x; auto. intros (b & -> & H) HQ. exists b. split; auto. Qed.
Lemma sim_ok {A B} (R : A -> B -> Prop) a b : R a b -> sim R (Ok a) (Ok b).
Proof. intros H. exists b. auto. Qed.
Lemma sim_eq_iff {A} (x y : res A) : sim eq x y -> (forall r, x <> UB r) -> y = x.
Proof. unfold sim. destruct x; auto; [intros (b & -> & <-); reflexivity|]. intros _ H. destruct (H r eq_refl). Qed.
Lemma sim_mapM {A B C} (R : B -> C -> Prop) (f : A -> res B) g l : (forall a, In a l -> sim R (f a) (g a)) -> sim (Forall2 R) (mapM f l) (mapM g l).
Proof.
  induction l as [|a l IH]; intros HF; cbn [mapM]; [apply sim_ok; constructor|].
  eapply sim_bind; [apply HF; left; reflexivity|]. intros b c _ Rb.
  eapply sim_bind; [apply IH; intros; apply HF; right; assumption|]. intros bs cs _ Rbs. apply sim_ok. constructor; assumption.
Qed.
Lemma sim_mapM_eq {A B} (f g : A -> res B) l : (forall a, In a l -> sim eq (f a) (g a)) -> sim eq (mapM f l) (mapM g l).
Proof. intros HF. eapply sim_mono; [apply sim_mapM, HF|]. intros a b _ F. induction F; congruence. Qed.
(** a loop that collects results against one that updates a state *)
Lemma sim_loop {B S} (P : list B -> S -> Prop) (f : nat -> res B) (g : S -> nat -> res S) n : forall s acc st,
  (forall acc st, s <= length acc < s + n -> P acc st -> sim (fun b st' => P (acc ++ [b]) st') (f (length acc)) (g st (length acc))) ->
  length acc = s -> P acc st ->
  sim (fun bs st' => length bs = n /\ P (acc ++ bs) st') (mapM f (seq s n)) (foldM g (seq s n) st).
Proof.
  induction n as [|n IH]; intros s acc st HF L HP; cbn [seq mapM foldM]; [apply sim_ok; rewrite app_nil_r; auto|].
  pose proof (HF acc st ltac:(lia) HP) as S1. rewrite L in S1.
  eapply sim_bind; [exact S1|]. intros b st' _ HP'.
  assert (L' : length (acc ++ [b]) = Datatypes.S s) by (rewrite app_length; cbn [length]; lia).
  assert (HF' : forall acc st, Datatypes.S s <= length acc < Datatypes.S s + n -> P acc st -> sim (fun b st' => P (acc ++ [b]) st') (f (length acc)) (g st (length acc)))
    by (intros acc0 st0 H0; apply HF; lia).
  pose proof (IH (Datatypes.S s) (acc ++ [b]) st' HF' L' HP') as S2.
  unfold sim in S2 |- *. destruct (mapM f (seq (Datatypes.S s) n)) as [bs|e|r|]; cbn [bind]; auto.
  destruct S2 as (st2 & -> & E2 & H2). exists st2. split; [reflexivity|]. cbn [length]. split; [congruence|]. rewrite <- app_assoc in H2. exact H2.
Qed.
(** loops over states on both sides *)
Lemma sim_foldM {A S S'} (P : S -> S' -> Prop) (f : S -> A -> res S) (g : S' -> A -> res S') l : forall s s',
  (forall a s s', In a l -> P s s' -> sim P (f s a) (g s' a)) -> P s s' -> sim P (foldM f l s) (foldM g l s').
Proof.
  induction l as [|a l IH]; intros s s' HF HP; cbn [foldM]; [apply sim_ok; exact HP|].
  eapply sim_bind; [apply HF; [left; reflexivity|exact HP]|]. intros t t' _ Ht. apply IH; [|exact Ht]. intros; apply HF; [right|]; assumption.
Qed.

Section Contents.
Context {A : Type}.
(** the container has the given dimensions and its slot (r, p) contains [f r p] *)
Definition holds (c : container A) (R n sz : nat) (f : nat -> nat -> list A) : Prop :=
  k_ok c /\ k_reps c = R /\ k_parties c = n /\ k_size c = sz /\ forall r p, r < R -> p < n -> k_get c r p = Ok (f r p).
Definition fupd (f : nat -> nat -> list A) (r p : nat) (v : list A) : nat -> nat -> list A :=
  fun r' p' => if (r' =? r) && (p' =? p) then v else f r' p'.

Lemma holds_ext c R n sz f g : holds c R n sz f -> (forall r p, r < R -> p < n -> f r p = g r p) -> holds c R n sz g.
Proof. intros (K & HR & HN & HS & G) E. repeat (split; [assumption|]). intros r p Hr Hp. rewrite G, E by assumption. reflexivity. Qed.
Lemma holds_get c R n sz f r p : holds c R n sz f -> r < R -> p < n -> k_get c r p = Ok (f r p).
Proof. intros H. apply H. Qed.
Lemma holds_len c R n sz f r p : holds c R n sz f -> r < R -> p < n -> length (f r p) = sz.
Proof.
  intros (K & HR & HN & HS & G) Hr Hp. destruct (k_get_ok c r p K) as [E L]; [lia|lia|]. rewrite G in E by assumption. injection E as ->. lia.
Qed.
Lemma holds_new d R n sz : holds (k_new d R n sz) R n sz (fun _ _ => repeat d sz).
Proof.
  pose proof (k_new_ok d R n sz) as K. repeat (split; [first [exact K|reflexivity]|]). intros r p Hr Hp.
  destruct (k_get_ok _ r p K Hr Hp) as [E L]. rewrite E. f_equal. change (k_size (k_new d R n sz)) with sz in *.
  apply list_eq_nth; [rewrite L, repeat_length; reflexivity|]. rewrite L. intros i Hi d'.
  rewrite nth_slice by exact Hi. change (k_data (k_new d R n sz)) with (repeat d (R * n * sz)).
  pose proof (k_offset_in (k_new d R n sz) r p Hr Hp) as B. cbn [k_size k_new k_reps k_parties] in B.
  assert (N : forall m j, j < m -> nth j (repeat d m) d' = d) by (induction m; destruct j; cbn; intros; auto; try lia; apply IHm; lia).
  rewrite !N; [reflexivity|exact Hi|lia].
Qed.
Lemma holds_rep c R n sz f r : holds c R n sz f -> r < R -> k_get_repetition c r = Ok (map (f r) (seq 0 n)).
Proof.
  intros (K & HR & HN & HS & G) Hr. rewrite k_repetition_eq, HN. apply mapM_ok. intros p Hp. apply in_seq in Hp. apply G; lia.
Qed.
Lemma holds_copy c R n sz f r p v : holds c R n sz f -> r < R -> p < n -> length v <= sz ->
  exists c', m_copy c r p v = Ok c' /\ holds c' R n sz (fupd f r p (v ++ skipn (length v) (f r p))).
Proof.
  intros H Hr Hp Hv. pose proof (holds_len _ _ _ _ _ _ _ H Hr Hp) as LF. destruct H as (K & HR & HN & HS & G).
  (* a short write is a write of the whole slot *)
  assert (E : k_put c r p v = k_put c r p (v ++ skipn (length v) (f r p))).
  { unfold k_put, k_write. pose proof (k_offset_in c r p ltac:(lia) ltac:(lia)) as B. unfold k_ok in K.
    assert (LA : length (v ++ skipn (length v) (f r p)) = sz) by (rewrite app_length, skipn_length; lia).
    rewrite LA. rewrite !(proj2 (Nat.leb_le _ _)) by lia.
    refine (f_equal (fun d => Ok (mkCont (firstn (k_offset c r p) (k_data c) ++ d) (k_reps c) (k_parties c) (k_size c))) _).
    rewrite <- app_assoc. f_equal. destruct (k_get_ok c r p) as [EG _]; [assumption|lia|lia|]. rewrite G in EG by assumption. injection EG as ->.
    rewrite HS. unfold slice. rewrite <- (firstn_skipn (sz - length v) (skipn (k_offset c r p + length v) (k_data c))). f_equal.
    - assert (S1 : forall (l : list A) a b, skipn a (skipn b l) = skipn (b + a) l).
      { clear. intros l a b. revert l. induction b; destruct l; cbn; auto. destruct a; reflexivity. }
      rewrite <- S1. generalize (skipn (k_offset c r p) (k_data c)). clear - Hv. generalize dependent sz. generalize (length v). clear v.
      intros k sz Hk l. revert l sz Hk. induction k; intros l sz Hk; [rewrite Nat.sub_0_r; reflexivity|].
      destruct l; [cbn; destruct (sz - Datatypes.S k), sz; reflexivity|]. destruct sz; [lia|]. cbn. apply IHk. lia.
    - assert (S1 : forall (l : list A) a b, skipn a (skipn b l) = skipn (b + a) l).
      { clear. intros l a b. revert l. induction b; destruct l; cbn; auto. destruct a; reflexivity. }
      rewrite S1. f_equal. lia. }
  unfold m_copy. rewrite E. destruct (k_put_ok c r p (v ++ skipn (length v) (f r p))) as (c' & E' & K' & R' & N' & S' & G1 & G2);
    [assumption|lia|lia|rewrite app_length, skipn_length; lia|].
  exists c'. split; [exact E'|]. split; [exact K'|]. split; [congruence|]. split; [congruence|]. split; [congruence|].
  intros r' p' Hr' Hp'. unfold fupd. destruct (Nat.eqb_spec r' r), (Nat.eqb_spec p' p); cbn [andb]; subst;
    first [exact G1|rewrite G2; [apply G; assumption|lia|lia|congruence]].
Qed.
Lemma holds_fill c R n sz f r p v : holds c R n sz f -> r < R -> p < n -> length v = sz ->
  exists c', m_copy c r p v = Ok c' /\ holds c' R n sz (fupd f r p v).
Proof.
  intros H Hr Hp Hv. destruct (holds_copy _ _ _ _ _ _ _ v H Hr Hp) as (c' & E & H'); [lia|]. exists c'. split; [exact E|].
  rewrite skipn_all2 in H' by (rewrite (holds_len _ _ _ _ _ _ _ H) by assumption; lia). rewrite app_nil_r in H'. exact H'.
Qed.
End Contents.
Lemma holds_xor c R n sz f r p v : holds c R n sz f -> r < R -> p < n -> length v <= sz ->
  exists c', m_xor c r p v = Ok c' /\ holds c' R n sz (fupd f r p (xorl v (f r p) ++ skipn (length v) (f r p))).
Proof.
  intros H Hr Hp Hv. pose proof (holds_len _ _ _ _ _ _ _ H Hr Hp) as LF. pose proof H as (K & HR & HN & HS & G).
  pose proof (k_offset_in c r p ltac:(lia) ltac:(lia)) as B. unfold k_ok in K.
  unfold m_xor. rewrite read_ok by lia. cbn [bind].
  assert (E : xorl v (slice (k_data c) (k_offset c r p) (length v)) = xorl v (f r p)).
  { destruct (k_get_ok c r p) as [EG _]; [exact K|lia|lia|]. rewrite G in EG by assumption. injection EG as ->. rewrite HS. unfold slice.
    generalize (skipn (k_offset c r p) (k_data c)). clear - Hv. intros l. revert l sz Hv. induction v; intros l sz Hv; [reflexivity|].
    cbn [length firstn]. destruct l; [destruct sz; reflexivity|]. destruct sz; [cbn [length] in Hv; lia|]. cbn [firstn xorl]. f_equal. apply IHv. cbn [length] in Hv. lia. }
  rewrite E. assert (LX : length (xorl v (f r p)) = length v) by (rewrite xorl_length, LF; lia).
  destruct (holds_copy c R n sz f r p (xorl v (f r p)) H Hr Hp) as (c' & E' & H'); [lia|].
  exists c'. split; [exact E'|]. rewrite LX in H'. exact H'.
Qed.

(** one repetition's slots filled from the front, and a container filled repetition after repetition *)
Definition rowfill {A} (f : nat -> nat -> list A) (rep : nat) (acc : list (list A)) : nat -> nat -> list A :=
  fun r p => if (r =? rep) && (p <? length acc) then nth p acc [] else f r p.
Definition matfill {A} (d : list A) (X : list (list (list A))) : nat -> nat -> list A :=
  fun r p => if r <? length X then nth p (nth r X []) [] else d.
Lemma rowfill_nil {A} (f : nat -> nat -> list A) rep r p : rowfill f rep [] r p = f r p.
Proof. unfold rowfill. cbn [length]. destruct (Nat.ltb_spec p 0); [lia|]. rewrite andb_false_r. reflexivity. Qed.
Lemma rowfill_snoc {A} (f : nat -> nat -> list A) rep acc v r p :
  fupd (rowfill f rep acc) rep (length acc) v r p = rowfill f rep (acc ++ [v]) r p.
Proof.
  unfold fupd, rowfill. rewrite app_length. cbn [length].
  destruct (Nat.eqb_spec r rep); cbn [andb]; [|reflexivity].
  destruct (Nat.eqb_spec p (length acc)), (Nat.ltb_spec p (length acc)), (Nat.ltb_spec p (length acc + 1)); try lia.
  - subst. rewrite app_nth2, Nat.sub_diag by lia. reflexivity.
  - rewrite app_nth1 by lia. reflexivity.
  - reflexivity.
Qed.
Lemma rowfill_upd {A} (f : nat -> nat -> list A) rep acc i v r p : i < length acc ->
  fupd (rowfill f rep acc) rep i v r p = rowfill f rep (upd acc i v) r p.
Proof.
  intros Hi. unfold fupd, rowfill. rewrite upd_length. destruct (Nat.eqb_spec r rep); cbn [andb]; [|reflexivity].
  rewrite nth_upd. destruct (Nat.eqb_spec p i), (Nat.ltb_spec p (length acc)); subst; rewrite ?Nat.eqb_refl; try lia; try reflexivity.
Qed.
Lemma matfill_snoc {A} (d : list A) X row R n r p : r < R -> p < n -> length row = n -> 
  rowfill (matfill d X) (length X) row r p = matfill d (X ++ [row]) r p.
Proof.
  intros Hr Hp L. unfold rowfill, matfill. rewrite app_length. cbn [length].
  destruct (Nat.eqb_spec r (length X)), (Nat.ltb_spec p (length row)), (Nat.ltb_spec r (length X)), (Nat.ltb_spec r (length X + 1)); cbn [andb]; try lia; try reflexivity.
  - subst. rewrite app_nth2, Nat.sub_diag by lia. reflexivity.
  - rewrite app_nth1 by lia. reflexivity.
Qed.
Lemma holds_snoc {A} (c : container A) d X row R n sz : holds c R n sz (rowfill (matfill d X) (length X) row) -> length row = n ->
  holds c R n sz (matfill d (X ++ [row])).
Proof. intros H L. eapply holds_ext; [exact H|]. intros r p Hr Hp. apply (matfill_snoc d X row R n); assumption. Qed.
