(** Counting the challenges for which a prover without a witness gets through (C78). *)
From Coq Require Import Arith NArith List Bool Lia.
From Verif Require Import Prelude ListSum Unbias LateSpec LateFacts.
Import ListNotations.

Lemma sum_le {A} (f g : A -> nat) l : (forall a, In a l -> f a <= g a) -> list_sum (map f l) <= list_sum (map g l).
Proof.
  induction l as [|a l IH]; intros H; [apply le_n|]. cbn [map list_sum fold_right]. change (fold_right Nat.add 0) with list_sum.
  apply Nat.add_le_mono; [apply H; left; reflexivity|apply IH; intros b Hb; apply H; right; exact Hb].
Qed.
Lemma sum_const {A} k (l : list A) : list_sum (map (fun _ => k) l) = length l * k.
Proof. induction l as [|a l IH]; [reflexivity|]. cbn [map list_sum fold_right length Nat.mul]. change (fold_right Nat.add 0) with list_sum. rewrite IH. reflexivity. Qed.
Lemma sum_scale {A} k (f : A -> nat) l : list_sum (map (fun a => k * f a) l) = k * list_sum (map f l).
Proof. induction l as [|a l IH]; [cbn; lia|]. cbn [map list_sum fold_right]. change (fold_right Nat.add 0) with list_sum. rewrite IH. lia. Qed.
Lemma length_filter_sum {A} (P : A -> bool) l : length (filter P l) = list_sum (map (fun a => if P a then 1 else 0) l).
Proof. induction l as [|a l IH]; [reflexivity|]. cbn [filter map list_sum fold_right]. change (fold_right Nat.add 0) with list_sum. destruct (P a); cbn [length]; rewrite IH; reflexivity. Qed.
Lemma length_flat {A B} (f : A -> list B) l : length (flat_map f l) = list_sum (map (fun a => length (f a)) l).
Proof. induction l as [|a l IH]; [reflexivity|]. cbn [flat_map map list_sum fold_right]. change (fold_right Nat.add 0) with list_sum. rewrite app_length, IH. reflexivity. Qed.
Lemma sum_flat {A B} (f : A -> list B) (g : B -> nat) l : list_sum (map g (flat_map f l)) = list_sum (map (fun a => list_sum (map g (f a))) l).
Proof. induction l as [|a l IH]; [reflexivity|]. cbn [flat_map map list_sum fold_right]. change (fold_right Nat.add 0) with list_sum. rewrite map_app, list_sum_app, IH. reflexivity. Qed.

Lemma filter_length_le {A} (P : A -> bool) l : length (filter P l) <= length l.
Proof. induction l as [|a l IH]; [apply le_n|]. cbn [filter]. destruct (P a); cbn [length]; lia. Qed.

Lemma sum_if {A} (P : A -> bool) x y V : list_sum (map (fun u => if P u then x else y) V) = length (filter P V) * x + length (filter (fun u => negb (P u)) V) * y.
Proof.
  induction V as [|u V IH]; [reflexivity|]. cbn [map list_sum fold_right filter]. change (fold_right Nat.add 0) with list_sum. rewrite IH. destruct (P u); cbn [negb length]; lia.
Qed.

(** *** tuples with many hits *)
Section Hits.
Variables (A : Type) (W : list A).
Fixpoint hits (bad : nat -> A -> bool) (t : list A) : nat :=
  match t with [] => 0 | a :: t' => (if bad 0 a then 1 else 0) + hits (fun e => bad (S e)) t' end.
Lemma count_hits b : forall q k bad, (forall e, e < q -> length (filter (bad e) W) <= b) ->
  length (filter (fun t => k <=? hits bad t) (tuples W q)) <= choose q k * b ^ k * length W ^ (q - k).
Proof.
  induction q as [|q IH]; intros k bad Hb.
  - destruct k; [apply le_n|apply Nat.le_0_l].
  - destruct k as [|k].
    + rewrite choose_0, Nat.sub_0_r. cbn [Nat.leb].
      replace (filter (fun _ => true) (tuples W (S q))) with (tuples W (S q)); [rewrite length_tuples; cbn [Nat.pow]; lia|].
      generalize (tuples W (S q)). intros l. induction l as [|x l IHl]; [reflexivity|]. cbn [filter]. rewrite <- IHl. reflexivity.
    + cbn [tuples]. rewrite filter_flat.
      set (x := choose q k * b ^ k * length W ^ (q - k)). set (y := choose q (S k) * b ^ S k * length W ^ (q - S k)).
      apply Nat.le_trans with (list_sum (map (fun a => if bad 0 a then x else y) W)).
      * apply sum_le. intros a _. destruct (bad 0 a) eqn:G.
        -- rewrite (filter_same _ (fun t => k <=? hits (fun e => bad (S e)) t)); [apply IH; intros e He; apply Hb; lia|]. intros t. cbn [hits]. rewrite G. reflexivity.
        -- rewrite (filter_same _ (fun t => S k <=? hits (fun e => bad (S e)) t)); [apply IH; intros e He; apply Hb; lia|]. intros t. cbn [hits]. rewrite G. reflexivity.
      * rewrite (sum_if (bad 0)). pose proof (Hb 0 ltac:(lia)) as B0. pose proof (filter_split (bad 0) W) as SP.
        set (u := length (filter (bad 0) W)) in *. set (v := length (filter (fun a => negb (bad 0 a)) W)) in *.
        cbn [choose Nat.sub]. rewrite !Nat.mul_add_distr_r.
        apply Nat.add_le_mono.
        -- transitivity (b * x); [apply Nat.mul_le_mono_r; exact B0|]. unfold x. cbn [Nat.pow]. lia.
        -- transitivity (length W * y); [apply Nat.mul_le_mono_r; lia|]. unfold y. destruct (le_lt_dec (S k) q) as [L|L].
           ++ replace (q - k) with (S (q - S k)) by lia. cbn [Nat.pow]. lia.
           ++ rewrite (choose_small q (S k)) by lia. lia.
Qed.
Lemma hits_count d : forall t bad, hits bad t = length (filter (fun e => bad e (nth e t d)) (seq 0 (length t))).
Proof.
  induction t as [|a t IH]; intros bad; [reflexivity|]. cbn [hits length seq filter]. rewrite IH.
  assert (E : length (filter (fun e => bad e (nth e (a :: t) d)) (seq 1 (length t))) = length (filter (fun e => bad (S e) (nth e t d)) (seq 0 (length t)))).
  { rewrite <- seq_shift. generalize (seq 0 (length t)). intros l. induction l as [|x l IHl]; [reflexivity|]. cbn [map filter]. change (nth (S x) (a :: t) d) with (nth x t d). destruct (bad (S x) (nth x t d)); cbn [length]; rewrite IHl; reflexivity. }
  change (nth 0 (a :: t) d) with a. destruct (bad 0 a); cbn [length Nat.add]; rewrite E; reflexivity.
Qed.
(** *** products *)
Fixpoint prodw (w : nat -> A -> nat) (t : list A) : nat := match t with [] => 1 | a :: t' => w 0 a * prodw (fun e => w (S e)) t' end.
Lemma sum_prod B : forall q w, (forall e, e < q -> list_sum (map (w e) W) <= B) -> list_sum (map (prodw w) (tuples W q)) <= B ^ q.
Proof.
  induction q as [|q IH]; intros w Hw; [cbn; lia|]. cbn [tuples Nat.pow]. rewrite sum_flat.
  apply Nat.le_trans with (list_sum (map (fun a => B ^ q * w 0 a) W)).
  - apply sum_le. intros a _. rewrite map_map. cbn [prodw]. rewrite sum_scale, Nat.mul_comm. apply Nat.mul_le_mono_r. apply IH. intros e He. apply Hw. lia.
  - rewrite sum_scale, Nat.mul_comm. apply Nat.mul_le_mono_r. apply Hw. lia.
Qed.
Fixpoint allok (ok : nat -> A -> bool) (t : list A) : bool := match t with [] => true | a :: t' => ok 0 a && allok (fun e => ok (S e)) t' end.
Lemma allok_prod : forall t ok, (if allok ok t then 1 else 0) = prodw (fun e a => if ok e a then 1 else 0) t.
Proof. induction t as [|a t IH]; intros ok; [reflexivity|]. cbn [allok prodw]. rewrite <- IH. destruct (ok 0 a); cbn [andb Nat.mul]; [|reflexivity]. destruct (allok _ t); reflexivity. Qed.
Lemma allok_true d : forall t ok, (forall e, e < length t -> ok e (nth e t d) = true) -> allok ok t = true.
Proof.
  induction t as [|a t IH]; intros ok H; [reflexivity|]. cbn [allok]. pose proof (H 0 ltac:(cbn; lia)) as H0. cbn [nth] in H0. rewrite H0. cbn [andb]. apply IH. intros e He. apply (H (S e)). cbn. lia.
Qed.
(** the number of tuples whose entries are all allowed: at most the product of the numbers of allowed entries *)
Lemma count_allok : forall q ok (w : nat -> nat), (forall e, e < q -> length (filter (ok e) W) <= w e) ->
  length (filter (allok ok) (tuples W q)) <= fold_right Nat.mul 1 (map w (seq 0 q)).
Proof.
  induction q as [|q IH]; intros ok w Hw; [apply le_n|]. cbn [tuples seq map fold_right]. rewrite filter_flat.
  apply Nat.le_trans with (list_sum (map (fun a => fold_right Nat.mul 1 (map w (seq 1 q)) * (if ok 0 a then 1 else 0)) W)).
  - apply sum_le. intros a _. cbn [allok]. destruct (ok 0 a).
    + rewrite (filter_same _ (allok (fun e => ok (S e)))) by reflexivity. rewrite <- seq_shift, map_map, Nat.mul_1_r. apply (IH (fun e => ok (S e)) (fun e => w (S e))). intros e He. apply Hw. lia.
    + rewrite (filter_same _ (fun _ => false)) by reflexivity. rewrite Nat.mul_0_r. generalize (tuples W q). intros l. induction l; auto.
  - rewrite sum_scale, <- length_filter_sum, Nat.mul_comm. apply Nat.mul_le_mono_r. apply Hw. lia.
Qed.
Lemma prodw_nth d : forall t w, prodw w t = fold_right Nat.mul 1 (map (fun e => w e (nth e t d)) (seq 0 (length t))).
Proof. induction t as [|a t IH]; intros w; [reflexivity|]. cbn [prodw length seq map fold_right nth]. rewrite IH, <- seq_shift, map_map. reflexivity. Qed.
Lemma prod_le (f g : nat -> nat) l : (forall e, In e l -> f e <= g e) -> fold_right Nat.mul 1 (map f l) <= fold_right Nat.mul 1 (map g l).
Proof.
  induction l as [|a l IH]; intros H; [apply le_n|]. cbn [map fold_right]. apply Nat.mul_le_mono; [apply H; left; reflexivity|apply IH; intros b Hb; apply H; right; exact Hb].
Qed.
End Hits.
Arguments hits {A}. Arguments prodw {A}. Arguments allok {A}.

(** *** a list in which every entry has a reason: the finitely many reasons *)
Lemma collect {X Y} (l : list X) (R : Y -> Prop) (Q : X -> (Y -> Prop) -> Prop) :
  (forall x (F G : Y -> Prop), (forall y, F y -> G y) -> Q x F -> Q x G) ->
  (forall x, In x l -> exists f : list Y, Forall R f /\ Q x (fun y => In y f)) -> exists f : list Y, Forall R f /\ forall x, In x l -> Q x (fun y => In y f).
Proof.
  intros Mono. induction l as [|x l IH]; intros H; [exists []; split; [constructor|intros x []]|].
  destruct (H x (or_introl eq_refl)) as (f & Rf & Qf). destruct IH as (g & Rg & Qg); [intros y Hy; apply H; right; exact Hy|].
  exists (f ++ g). split; [apply Forall_app; split; assumption|]. intros y [<-|Hy].
  - apply (Mono _ _ _ (fun z Hz => in_or_app f g z (or_introl Hz)) Qf).
  - apply (Mono _ _ _ (fun z Hz => in_or_app f g z (or_intror Hz)) (Qg y Hy)).
Qed.
(** Of the T-tuples over W, those with k places that are bad: at most b values are bad at each place. *)
Section Many.
Variables (A : Type) (dec : forall x y : A, {x = y} + {x <> y}) (W : list A) (d : A) (Bad : nat -> A -> Prop) (T b : nat).
Hypothesis NDW : NoDup W.
Hypothesis Few : forall e zs, e < T -> NoDup zs -> incl zs W -> (forall a, In a zs -> Bad e a) -> length zs <= b.
Lemma many_bound k l : NoDup l -> (forall t, In t l -> length t = T /\ Forall (fun a => In a W) t /\ exists es, NoDup es /\ length es = k /\ forall e, In e es -> e < T /\ Bad e (nth e t d)) ->
  length l <= choose T k * b ^ k * length W ^ (T - k).
Proof.
  intros ND H.
  destruct (collect l (fun p : nat * A => Bad (fst p) (snd p)) (fun t F => exists es, NoDup es /\ length es = k /\ forall e, In e es -> e < T /\ F (e, nth e t d))) as (f & Rf & Qf).
  - intros t F G FG (es & N1 & L1 & H1). exists es. split; [exact N1|]. split; [exact L1|]. intros e He. destruct (H1 e He). split; [assumption|]. apply FG. assumption.
  - intros t Ht. destruct (H t Ht) as (_ & _ & es & N1 & L1 & H1). exists (map (fun e => (e, nth e t d)) es). split.
    + apply Forall_map, Forall_forall. intros e He. apply H1. exact He.
    + exists es. split; [exact N1|]. split; [exact L1|]. intros e He. split; [apply H1; exact He|]. apply in_map_iff. exists e. split; [reflexivity|exact He].
  - assert (dec2 : forall x y : nat * A, {x = y} + {x <> y}) by (intros [x1 x2] [y1 y2]; destruct (Nat.eq_dec x1 y1) as [->|N]; [destruct (dec x2 y2) as [->|N]; [left; reflexivity|right; congruence]|right; congruence]).
    set (bad := fun e a => if in_dec dec2 (e, a) f then true else false).
    assert (Hbad : forall e a, bad e a = true <-> In (e, a) f) by (intros e a; unfold bad; destruct (in_dec dec2 (e, a) f); split; intros; try discriminate; try reflexivity; try assumption; contradiction).
    apply Nat.le_trans with (length (filter (fun t => k <=? hits bad t) (tuples W T))).
    + apply NoDup_incl_length; [exact ND|]. intros t Ht. destruct (H t Ht) as (Lt & Ft & _). destruct (Qf t Ht) as (es & N1 & L1 & H1). apply filter_In. split; [apply in_tuples; split; assumption|].
      apply Nat.leb_le. rewrite (hits_count A d), <- L1. apply NoDup_incl_length; [exact N1|]. intros e He. destruct (H1 e He) as [He1 He2]. apply filter_In. split; [apply in_seq; lia|apply Hbad; exact He2].
    + apply count_hits. intros e He. apply (Few e); [exact He|apply NoDup_filter; exact NDW|intros a Ha; apply filter_In in Ha; apply Ha|].
      intros a Ha. apply filter_In in Ha. destruct Ha as [_ Ha]. apply Hbad in Ha. rewrite Forall_forall in Rf. exact (Rf _ Ha).
Qed.
End Many.

(** Three challenges, one after the other: a tuple of the first is bad at a place, or a tuple of the second is (what is bad there
    depends on the first tuple), or the third is guessed (the guess depends on both tuples). *)
Section Three.
Variables (A1 A2 : Type) (dec1 : forall x y : A1, {x = y} + {x <> y}) (dec2 : forall x y : A2, {x = y} + {x <> y}) (d1 : A1) (d2 : A2) (W1 : list A1) (W2 : list A2) (n : nat).
Variables (Bad1 : nat -> A1 -> Prop) (Bad2 : list A1 -> nat -> A2 -> Prop) (guess : list A1 -> list A2 -> nat -> nat) (T b1 b2 : nat).
Hypothesis ND1 : NoDup W1.
Hypothesis ND2 : NoDup W2.
Hypothesis Few1 : forall e zs, e < T -> NoDup zs -> incl zs W1 -> (forall a, In a zs -> Bad1 e a) -> length zs <= b1.
Hypothesis Few2 : forall t e zs, length t = T -> e < T -> NoDup zs -> incl zs W2 -> (forall a, In a zs -> Bad2 t e a) -> length zs <= b2.
Definition through (x : list A1 * list A2 * list nat) : Prop := let '(t1, t2, t3) := x in
  length t1 = T /\ length t2 = T /\ length t3 = T /\ Forall (fun a => In a W1) t1 /\ Forall (fun a => In a W2) t2 /\ Forall (fun p => p < n) t3 /\
  forall e, e < T -> Bad1 e (nth e t1 d1) \/ Bad2 t1 e (nth e t2 d2) \/ nth e t3 0 = guess t1 t2 e.
Lemma forall_or_list (P Q : nat -> Prop) m : (forall e, e < m -> P e \/ Q e) -> exists es, (forall e, In e es -> e < m /\ P e) /\ forall e, e < m -> In e es \/ Q e.
Proof.
  induction m as [|m IH]; intros H; [exists []; split; [intros e []|intros e He; lia]|]. destruct IH as (es & H1 & H2); [intros e He; apply H; lia|].
  destruct (H m (Nat.lt_succ_diag_r m)) as [Pm|Qm].
  - exists (m :: es). split; [intros e [<-|He]; [split; [lia|exact Pm]|destruct (H1 e He); split; [lia|assumption]]|].
    intros e He. destruct (Nat.eq_dec e m) as [->|Ne]; [left; left; reflexivity|]. destruct (H2 e ltac:(lia)) as [X|X]; [left; right; exact X|right; exact X].
  - exists es. split; [intros e He; destruct (H1 e He); split; [lia|assumption]|]. intros e He. destruct (Nat.eq_dec e m) as [->|Ne]; [right; exact Qm|apply H2; lia].
Qed.
Lemma three_bound l : NoDup l -> Forall through l -> length l <= (b1 * (length W2 * n) + length W1 * (b2 * n + length W2)) ^ T.
Proof.
  intros ND H. rewrite Forall_forall in H.
  destruct (collect l (fun p : nat * A1 => Bad1 (fst p) (snd p)) (fun x F => let '(t1, t2, t3) := x in forall e, e < T -> F (e, nth e t1 d1) \/ (Bad2 t1 e (nth e t2 d2) \/ nth e t3 0 = guess t1 t2 e))) as (f & Rf & Qf).
  { intros [[t1 t2] t3] F G FG X e He. destruct (X e He) as [Y|Y]; [left; apply FG; exact Y|right; exact Y]. }
  { intros [[t1 t2] t3] Hx. destruct (H _ Hx) as (_ & _ & _ & _ & _ & _ & Z). destruct (forall_or_list _ _ T Z) as (es & E1 & E2). exists (map (fun e => (e, nth e t1 d1)) es). split.
    - apply Forall_map, Forall_forall. intros e He. apply E1. exact He.
    - intros e He. destruct (E2 e He) as [X|X]; [left; apply in_map_iff; exists e; split; [reflexivity|exact X]|right; exact X]. }
  destruct (collect l (fun p : (list A1 * nat) * A2 => length (fst (fst p)) = T /\ Bad2 (fst (fst p)) (snd (fst p)) (snd p)) (fun x F => let '(t1, t2, t3) := x in forall e, e < T -> In (e, nth e t1 d1) f \/ (F ((t1, e), nth e t2 d2) \/ nth e t3 0 = guess t1 t2 e))) as (g & Rg & Qg).
  { intros [[t1 t2] t3] F G FG X e He. destruct (X e He) as [Y|[Y|Y]]; [left; exact Y|right; left; apply FG; exact Y|right; right; exact Y]. }
  { intros [[t1 t2] t3] Hx. destruct (H _ Hx) as (L1 & _). pose proof (Qf _ Hx) as Z. cbn beta iota in Z.
    destruct (forall_or_list (fun e => Bad2 t1 e (nth e t2 d2)) (fun e => In (e, nth e t1 d1) f \/ nth e t3 0 = guess t1 t2 e) T) as (es & E1 & E2); [intros e He; destruct (Z e He) as [X|[X|X]]; auto|].
    exists (map (fun e => ((t1, e), nth e t2 d2)) es). split.
    - apply Forall_map, Forall_forall. intros e He. split; [exact L1|]. apply E1. exact He.
    - intros e He. destruct (E2 e He) as [X|[X|X]]; [right; left; apply in_map_iff; exists e; split; [reflexivity|exact X]|left; exact X|right; right; exact X]. }
  assert (decf : forall x y : nat * A1, {x = y} + {x <> y}) by (intros [x1 x2] [y1 y2]; destruct (Nat.eq_dec x1 y1) as [->|N]; [destruct (dec1 x2 y2) as [->|N]; [left; reflexivity|right; congruence]|right; congruence]).
  assert (decg : forall x y : (list A1 * nat) * A2, {x = y} + {x <> y}) by (intros [[x1 x2] x3] [[y1 y2] y3]; destruct (list_eq_dec dec1 x1 y1) as [->|N]; [destruct (Nat.eq_dec x2 y2) as [->|N]; [destruct (dec2 x3 y3) as [->|N]; [left; reflexivity|right; congruence]|right; congruence]|right; congruence]).
  set (bad1 := fun e a => if in_dec decf (e, a) f then true else false).
  set (bad2 := fun t1 e a => if in_dec decg ((t1, e), a) g then true else false).
  assert (Hb1 : forall e a, bad1 e a = true <-> In (e, a) f) by (intros e a; unfold bad1; destruct (in_dec decf (e, a) f); split; intros; try discriminate; try reflexivity; try assumption; contradiction).
  assert (Hb2 : forall t e a, bad2 t e a = true <-> In ((t, e), a) g) by (intros t e a; unfold bad2; destruct (in_dec decg ((t, e), a) g); split; intros; try discriminate; try reflexivity; try assumption; contradiction).
  set (ok := fun t1 t2 e p => bad1 e (nth e t1 d1) || (bad2 t1 e (nth e t2 d2) || (p =? guess t1 t2 e))).
  set (all := flat_map (fun t1 => flat_map (fun t2 => map (fun t3 => (t1, t2, t3)) (filter (allok (ok t1 t2)) (tuples (seq 0 n) T))) (tuples W2 T)) (tuples W1 T)).
  apply Nat.le_trans with (length all).
  { apply NoDup_incl_length; [exact ND|]. intros [[t1 t2] t3] Hx. destruct (H _ Hx) as (L1 & L2 & L3 & F1 & F2 & F3 & _). pose proof (Qg _ Hx) as Z. cbn beta iota in Z.
    apply in_flat_map. exists t1. split; [apply in_tuples; split; assumption|]. apply in_flat_map. exists t2. split; [apply in_tuples; split; assumption|].
    apply in_map_iff. exists t3. split; [reflexivity|]. apply filter_In. split.
    - apply in_tuples. split; [exact L3|]. rewrite Forall_forall in *. intros p Hp. apply in_seq. specialize (F3 p Hp). lia.
    - apply (allok_true nat 0). intros e He. rewrite L3 in He. unfold ok. destruct (Z e He) as [X|[X|X]].
      + apply Hb1 in X. rewrite X. reflexivity.
      + apply Hb2 in X. rewrite X. rewrite orb_true_r. reflexivity.
      + apply Nat.eqb_eq in X. rewrite X, !orb_true_r. reflexivity. }
  (* the third challenge *)
  assert (C3 : forall t1 t2, length t2 = T -> length (filter (allok (ok t1 t2)) (tuples (seq 0 n) T)) <= prodw (fun e a => if bad1 e (nth e t1 d1) then n else if bad2 t1 e a then n else 1) t2).
  { intros t1 t2 L2. rewrite (prodw_nth A2 d2), L2. apply count_allok. intros e He. unfold ok. destruct (bad1 e (nth e t1 d1)); cbn [orb].
    - etransitivity; [apply filter_length_le|]. rewrite seq_length. apply le_n.
    - destruct (bad2 t1 e (nth e t2 d2)); cbn [orb]; [etransitivity; [apply filter_length_le|]; rewrite seq_length; apply le_n|].
      transitivity (length [guess t1 t2 e]); [|apply le_n]. apply NoDup_incl_length; [apply NoDup_filter, seq_NoDup|]. intros p Hp. apply filter_In in Hp. destruct Hp as [_ Hp]. apply Nat.eqb_eq in Hp. left. symmetry. exact Hp. }
  (* the second *)
  assert (C2 : forall t1, length t1 = T -> list_sum (map (fun t2 => length (filter (allok (ok t1 t2)) (tuples (seq 0 n) T))) (tuples W2 T)) <=
    prodw (fun e a => if bad1 e a then length W2 * n else b2 * n + length W2) t1).
  { intros t1 L1. etransitivity; [apply sum_le with (g := prodw (fun e a => if bad1 e (nth e t1 d1) then n else if bad2 t1 e a then n else 1)); intros t2 Ht2; apply C3; apply in_tuples in Ht2; apply Ht2|].
    rewrite (prodw_nth A1 d1), L1.
    assert (SP : forall q w v, (forall e, e < q -> list_sum (map (w e) W2) <= v e) -> list_sum (map (prodw w) (tuples W2 q)) <= fold_right Nat.mul 1 (map v (seq 0 q))).
    { clear. induction q as [|q IH]; intros w v Hw; [cbn; lia|]. cbn [tuples seq map fold_right]. rewrite sum_flat.
      apply Nat.le_trans with (list_sum (map (fun a => fold_right Nat.mul 1 (map v (seq 1 q)) * w 0 a) W2)).
      - apply sum_le. intros a _. rewrite map_map. cbn [prodw]. rewrite sum_scale, Nat.mul_comm. apply Nat.mul_le_mono_r. rewrite <- seq_shift, map_map. apply (IH (fun e => w (S e)) (fun e => v (S e))). intros e He. apply Hw. lia.
      - rewrite sum_scale, Nat.mul_comm. apply Nat.mul_le_mono_r. apply Hw. lia. }
    apply SP. intros e He. destruct (bad1 e (nth e t1 d1)).
    - rewrite sum_const. apply le_n.
    - rewrite (sum_if (bad2 t1 e)). pose proof (filter_split (bad2 t1 e) W2) as SPL.
      assert (B : length (filter (bad2 t1 e) W2) <= b2).
      { apply (Few2 t1 e); [exact L1|exact He|apply NoDup_filter; exact ND2|intros a Ha; apply filter_In in Ha; apply Ha|]. intros a Ha. apply filter_In in Ha. destruct Ha as [_ Ha]. apply Hb2 in Ha. rewrite Forall_forall in Rg. exact (proj2 (Rg _ Ha)). }
      apply Nat.add_le_mono; [apply Nat.mul_le_mono_r; exact B|lia]. }
  unfold all. rewrite length_flat. etransitivity.
  { apply sum_le with (g := prodw (fun e a => if bad1 e a then length W2 * n else b2 * n + length W2)). intros t1 Ht1. rewrite length_flat. etransitivity; [|apply C2; apply in_tuples in Ht1; apply Ht1].
    apply sum_le. intros t2 _. rewrite map_length. apply le_n. }
  apply sum_prod. intros e He. rewrite (sum_if (bad1 e)). pose proof (filter_split (bad1 e) W1) as SPL.
  assert (B : length (filter (bad1 e) W1) <= b1).
  { apply (Few1 e); [exact He|apply NoDup_filter; exact ND1|intros a Ha; apply filter_In in Ha; apply Ha|]. intros a Ha. apply filter_In in Ha. destruct Ha as [_ Ha]. apply Hb1 in Ha. rewrite Forall_forall in Rf. exact (Rf _ Ha). }
  apply Nat.add_le_mono; apply Nat.mul_le_mono_r; [exact B|lia].
Qed.
End Three.
