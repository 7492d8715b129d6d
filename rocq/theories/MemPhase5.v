(** The shares of a, b and c in flat containers *)
From Coq Require Import Arith NArith List Bool Lia.
From Verif Require Import Prelude FieldModel HashModel TreeModel Instances ContainerModel MemModel BanquetModel MemBase MemAes MemRows MemSetup MemPhase1 FreeSpec.
Import ListNotations.

Lemma fupd_twice {A} (f : nat -> nat -> list A) r p v w r' p' : fupd (fupd f r p v) r p w r' p' = fupd f r p w r' p'.
Proof. unfold fupd. destruct ((r' =? r) && (p' =? p)); reflexivity. Qed.
Lemma fupd_at {A} (f : nat -> nat -> list A) r p v : fupd f r p v r p = v.
Proof. unfold fupd. rewrite !Nat.eqb_refl. reflexivity. Qed.
Lemma fupd_other {A} (f : nat -> nat -> list A) r p v p' : p' <> p -> fupd f r p v r p' = f r p'.
Proof. intros N. unfold fupd. destruct (Nat.eqb_spec p' p); [contradiction|]. rewrite andb_false_r. reflexivity. Qed.
Lemma get_upd_same {A} (l : list A) i x : i < length l -> get (upd l i x) i = Ok x.
Proof. intros H. rewrite (get_ok _ i x) by (rewrite upd_length; exact H). f_equal. rewrite nth_upd. rewrite Nat.eqb_refl, (proj2 (Nat.ltb_lt _ _) H). reflexivity. Qed.
Lemma get_upd_other {A} (l : list A) i j x : j <> i -> get (upd l i x) j = get l j.
Proof.
  intros N. unfold get. assert (E : nth_error (upd l i x) j = nth_error l j); [|rewrite E; reflexivity].
  revert i j N. induction l as [|a l IH]; intros i j N; destruct i, j; cbn; try reflexivity; try lia. apply IH. lia.
Qed.
Lemma upd_upd {A} (l : list A) i x y : upd (upd l i x) i y = upd l i y.
Proof. revert i. induction l; intros [|i]; cbn; try reflexivity. f_equal. apply IHl. Qed.
Lemma set_ok {A} (l : list A) i x : i < length l -> set l i x = Ok (upd l i x).
Proof. intros H. unfold set. rewrite (proj2 (Nat.ltb_lt _ _) H). reflexivity. Qed.
Lemma seq_map_nth {A} (l : list A) d m : length l = m -> map (fun j => nth j l d) (seq 0 m) = l.
Proof. intros <-. etransitivity; [|exact (map_nth_seq l d 0)]. apply map_ext. intros j. f_equal. lia. Qed.

(** the sum of the known values, element by element and for whole vectors *)
Definition adds (sel : view -> list N) (l : list (option view)) (x : list N) : list N :=
  fold_left (fun acc ov => match ov with None => acc | Some v => xorl acc (sel v) end) l x.
Definition addc (l : list (option view)) (x : N) : N := fold_left (fun acc ov => match ov with None => acc | Some v => gadd acc (v_c v) end) l x.
Lemma adds_elem sel m l : forall x, (forall v, In (Some v) l -> length (sel v) = m) -> length x = m ->
  adds sel l x = map (fun j => fold_left (fun acc ov => match ov with None => acc | Some v => gadd acc (nth j (sel v) 0%N) end) l (nth j x 0%N)) (seq 0 m).
Proof.
  induction l as [|[v|] l IH]; intros x HL Lx; cbn [adds fold_left].
  - symmetry. apply seq_map_nth. exact Lx.
  - assert (Lv : length (sel v) = m) by (apply HL; left; reflexivity).
    change (adds sel l (xorl x (sel v)) = map (fun j => fold_left (fun acc ov => match ov with None => acc | Some v => gadd acc (nth j (sel v) 0%N) end) l (gadd (nth j x 0%N) (nth j (sel v) 0%N))) (seq 0 m)).
    rewrite IH; [|intros; apply HL; right; assumption|apply xorl_length_eq; assumption].
    apply map_ext. intros j. rewrite nth_xorl by congruence. reflexivity.
  - apply IH; [intros; apply HL; right; assumption|exact Lx].
Qed.
Lemma adds_len sel m l x : (forall v, In (Some v) l -> length (sel v) = m) -> length x = m -> length (adds sel l x) = m.
Proof. intros HL Lx. rewrite (adds_elem sel m) by assumption. rewrite map_length. apply seq_length. Qed.
Lemma sum_elem (sel : view -> list N) m l j x : (forall v, In (Some v) l -> length (sel v) = m) -> j < m ->
  foldM (fun acc ov => match ov with None => Ok acc | Some v => do y <- get (sel v) j; Ok (gadd acc y) end) l x =
  Ok (fold_left (fun acc ov => match ov with None => acc | Some v => gadd acc (nth j (sel v) 0%N) end) l x).
Proof.
  revert x. induction l as [|[v|] l IH]; intros x HL Hj; cbn [foldM fold_left bind]; [reflexivity| |apply IH; [intros; apply HL; right; assumption|exact Hj]].
  rewrite (get_ok _ j 0%N) by (rewrite HL; [exact Hj|left; reflexivity]). cbn [bind]. apply IH; [intros; apply HL; right; assumption|exact Hj].
Qed.
Lemma party_view_len I c lag1 lag2 pts sh v : party_view I c lag1 lag2 pts sh = Ok v -> length (v_a v) = m1 I /\ length (v_b v) = m1 I.
Proof.
  unfold party_view. intros E. apply bind_ok in E as (a & Ea & E). apply bind_ok in E as (b & Eb & E). apply bind_ok in E as (x & _ & E).
  injection E as <-. unfold v_a, v_b. cbn [fst snd]. apply mapM_length in Ea, Eb. rewrite seq_length in Ea, Eb. auto.
Qed.

Section Phase5.
Variable I : instance.
Variable c : fctx.
Local Notation n := (num_parties I).
Local Notation T := (num_rounds I).
Local Notation m := (m1 I).
Variable rep : nat.
Hypothesis Hr : rep < T.

(** the state while the views are written *)
Definition slot_a (ov : option view) : list N := match ov with None => repeat 0%N m | Some v => v_a v end.
Definition slot_b (ov : option view) : list N := match ov with None => repeat 0%N m | Some v => v_b v end.
Definition slot_c (ov : option view) : N := match ov with None => 0%N | Some v => v_c v end.
Definition written (fa fb : nat -> nat -> list N) (acc : list (option view)) (s : container N * container N * list N) : Prop :=
  let '(a, b, cs) := s in
  holds a T n m (rowfill fa rep (map slot_a acc)) /\ holds b T n m (rowfill fb rep (map slot_b acc)) /\
  cs = map slot_c acc ++ repeat 0%N (n - length acc) /\ (forall v, In (Some v) acc -> length (v_a v) = m /\ length (v_b v) = m).
Lemma upd_snoc {A} (l : list A) x k d : 0 < k -> upd (l ++ repeat d k) (length l) x = (l ++ [x]) ++ repeat d (k - 1).
Proof.
  intros Hk. destruct k as [|k]; [lia|]. cbn [repeat]. replace (S k - 1) with k by lia. rewrite <- app_assoc. cbn [app].
  induction l; cbn; [reflexivity|]. f_equal. assumption.
Qed.
Lemma write_view fa fb acc a b cs v : length acc < n -> written fa fb acc (a, b, cs) -> length (v_a v) = m -> length (v_b v) = m ->
  exists s', (do a <- m_copy a rep (length acc) (v_a v); do b <- m_copy b rep (length acc) (v_b v); do cs <- set cs (length acc) (v_c v); Ok (a, b, cs)) = Ok s' /\
    written fa fb (acc ++ [Some v]) s'.
Proof.
  intros L (Ha & Hb & Ec & HL) La Lb.
  destruct (holds_fill _ _ _ _ _ rep (length acc) (v_a v) Ha Hr L La) as (a' & Ea & Ha'). rewrite Ea. cbn [bind].
  destruct (holds_fill _ _ _ _ _ rep (length acc) (v_b v) Hb Hr L Lb) as (b' & Eb & Hb'). rewrite Eb. cbn [bind].
  rewrite set_ok by (subst cs; rewrite app_length, map_length, repeat_length; lia). cbn [bind]. eexists. split; [reflexivity|]. split; [|split; [|split]].
  - eapply holds_ext; [exact Ha'|]. intros r p _ _. rewrite <- (map_length slot_a acc) at 1. rewrite rowfill_snoc, map_app. reflexivity.
  - eapply holds_ext; [exact Hb'|]. intros r p _ _. rewrite <- (map_length slot_b acc) at 1. rewrite rowfill_snoc, map_app. reflexivity.
  - subst cs. rewrite map_app, app_length. cbn [map length]. rewrite <- (map_length slot_c acc) at 2. rewrite upd_snoc by lia. f_equal. f_equal. lia.
  - intros v' Hv'. apply in_app_or in Hv' as [Hv'|[Hv'|[]]]; [auto|]. injection Hv' as <-. auto.
Qed.

(** subtracting the known shares *)
Section Sub.
Variables (missing : nat) (known : list (option view)) (Fa Fb : nat -> nat -> list N) (cs0 : list N).
Hypothesis Hm : missing < n.
Hypothesis Lk : length known = n.
Hypothesis Lc : length cs0 = n.
Hypothesis Hnone : forall p, nth_error known p = Some None -> p = missing.
Hypothesis Hsome : forall p v, nth_error known p = Some (Some v) ->
  p <> missing /\ Fa rep p = v_a v /\ Fb rep p = v_b v /\ get cs0 p = Ok (v_c v) /\ length (v_a v) = m /\ length (v_b v) = m.
Definition sub_step (s : container N * container N * list N) (party : nat) : res (container N * container N * list N) :=
    if party =? missing then Ok s else
    let '(a_shares, b_shares, cs) := s in
    do x <- get cs missing; do y <- get cs party; do cs <- set cs missing (gadd x y);
    do am <- k_get a_shares rep missing; do ap <- k_get a_shares rep party; do a_shares <- m_copy a_shares rep missing (xorl am ap);
    do bm <- k_get b_shares rep missing; do bp <- k_get b_shares rep party; do b_shares <- m_copy b_shares rep missing (xorl bm bp);
    Ok (a_shares, b_shares, cs).
Lemma sub_loop l : forall s x y z a b, skipn s known = l -> length x = m -> length y = m ->
  holds a T n m (fupd Fa rep missing x) -> holds b T n m (fupd Fb rep missing y) ->
  exists a' b', foldM sub_step (seq s (length l)) (a, b, upd cs0 missing z) = Ok (a', b', upd cs0 missing (addc l z)) /\
    holds a' T n m (fupd Fa rep missing (adds v_a l x)) /\ holds b' T n m (fupd Fb rep missing (adds v_b l y)).
Proof.
  induction l as [|ov l IH]; intros s x y z a b El Lx Ly Ha Hb; cbn [length seq foldM]; [exists a, b; auto|].
  assert (Es : nth_error known s = Some ov).
  { rewrite <- (firstn_skipn s known), El. assert (s <= length known) by (destruct (Nat.le_gt_cases s (length known)); [assumption|rewrite skipn_all2 in El by lia; discriminate]).
    rewrite nth_error_app2; rewrite firstn_length_le by lia; [rewrite Nat.sub_diag; reflexivity|lia]. }
  assert (El' : skipn (S s) known = l).
  { clear - El. revert known El. induction s; intros k El; destruct k; cbn in *; try discriminate; [injection El as _ ->; reflexivity|]. apply (IHs k El). }
  assert (Hs : s < n) by (rewrite <- Lk; apply nth_error_Some; congruence).
  destruct ov as [v|].
  - destruct (Hsome s v Es) as (Ns & Ea & Eb & Ec & La & Lb). unfold sub_step at 1. destruct (Nat.eqb_spec s missing); [contradiction|].
    rewrite get_upd_same by lia. cbn [bind]. rewrite get_upd_other by assumption. rewrite Ec. cbn [bind]. rewrite set_ok by (rewrite upd_length; lia). cbn [bind].
    rewrite upd_upd. rewrite !(holds_get _ _ _ _ _ rep _ Ha) by assumption. cbn [bind]. rewrite fupd_at, fupd_other, Ea by assumption.
    destruct (holds_fill _ _ _ _ _ rep missing (xorl x (v_a v)) Ha Hr Hm) as (a1 & Ea1 & Ha1); [apply xorl_length_eq; assumption|]. rewrite Ea1. cbn [bind].
    rewrite !(holds_get _ _ _ _ _ rep _ Hb) by assumption. cbn [bind]. rewrite fupd_at, fupd_other, Eb by assumption.
    destruct (holds_fill _ _ _ _ _ rep missing (xorl y (v_b v)) Hb Hr Hm) as (b1 & Eb1 & Hb1); [apply xorl_length_eq; assumption|]. rewrite Eb1. cbn [bind].
    apply (IH (S s) (xorl x (v_a v)) (xorl y (v_b v)) (gadd z (v_c v))); try (apply xorl_length_eq; assumption); [exact El'| |].
    + eapply holds_ext; [exact Ha1|]. intros r p _ _. apply fupd_twice.
    + eapply holds_ext; [exact Hb1|]. intros r p _ _. apply fupd_twice.
  - pose proof (Hnone s Es) as E. unfold sub_step at 1. destruct (Nat.eqb_spec s missing); [|contradiction]. cbn [bind]. apply (IH (S s)); assumption.
Qed.
End Sub.

(** what is known about the containers after a repetition *)
Definition rep5 (fa fb : nat -> nat -> list N) (x : view * list view) (y : view * list N * (container N * container N)) : Prop :=
  fst (fst y) = fst x /\ snd (fst y) = map v_c (snd x) /\ length (snd x) = n /\
  holds (fst (snd y)) T n m (rowfill fa rep (map v_a (snd x))) /\ holds (snd (snd y)) T n m (rowfill fb rep (map v_b (snd x))).

Lemma verify_phase5_sim pre1 pre2 R proof missing ph3 a b fa fb : missing < n ->
  holds a T n m fa -> holds b T n m fb -> (forall p, p < n -> fa rep p = repeat 0%N m) -> (forall p, p < n -> fb rep p = repeat 0%N m) ->
  sim (rep5 fa fb) (verify_phase5 I c pre1 pre2 R proof missing ph3) (m_verify_phase5 I c pre1 pre2 R proof missing ph3 rep (a, b)).
Proof.
  intros Hm Ha Hb Za Zb. unfold verify_phase5, m_verify_phase5. apply sim_same. intros lag1 _. apply sim_same. intros lag2 _.
  eapply sim_bind.
  { apply (sim_loop (fun acc s => written fa fb acc s /\ (forall p ov, nth_error acc p = Some ov -> (ov = None <-> p = missing)))) with (s := 0) (acc := []) (n := n);
      [|reflexivity|].
    - intros acc [[a0 b0] cs0] L [HW HN]. cbv beta.
      assert (HN' : forall ov, (ov = None <-> length acc = missing) -> forall p ov', nth_error (acc ++ [ov]) p = Some ov' -> (ov' = None <-> p = missing)).
      { intros ov Hov p ov' E. destruct (Nat.lt_ge_cases p (length acc)) as [Hp|Hp]; [rewrite nth_error_app1 in E by lia; apply (HN _ _ E)|].
        assert (Hp' : p < length (acc ++ [ov])) by (apply nth_error_Some; congruence). rewrite app_length in Hp'. cbn [length] in Hp'.
        replace p with (length acc) in * by lia. rewrite nth_error_app2, Nat.sub_diag in E by lia. cbn in E. injection E as <-. exact Hov. }
      destruct (Nat.eqb_spec (length acc) missing) as [E|E].
      + apply sim_ok. split; [|apply HN'; tauto]. destruct HW as (Wa & Wb & Wc & WL). split; [|split; [|split]].
        * eapply holds_ext; [exact Wa|]. intros r p _ Hp. rewrite map_app. cbn [map]. rewrite <- rowfill_snoc. unfold fupd. rewrite map_length.
          destruct (Nat.eqb_spec r rep), (Nat.eqb_spec p (length acc)); cbn [andb]; try reflexivity. subst r p. unfold rowfill. rewrite map_length, Nat.ltb_irrefl, andb_false_r. cbn [slot_a]. apply Za. lia.
        * eapply holds_ext; [exact Wb|]. intros r p _ Hp. rewrite map_app. cbn [map]. rewrite <- rowfill_snoc. unfold fupd. rewrite map_length.
          destruct (Nat.eqb_spec r rep), (Nat.eqb_spec p (length acc)); cbn [andb]; try reflexivity. subst r p. unfold rowfill. rewrite map_length, Nat.ltb_irrefl, andb_false_r. cbn [slot_b]. apply Zb. lia.
        * rewrite Wc, map_app, app_length. cbn [map length slot_c]. destruct (n - length acc) as [|k] eqn:Ek; [lia|]. replace (n - (length acc + 1)) with k by lia.
          cbn [repeat]. rewrite <- app_assoc. reflexivity.
        * intros v Hv. apply in_app_or in Hv as [Hv|[Hv|[]]]; [auto|discriminate].
      + apply sim_same. intros pts _. apply sim_same. intros sh _. destruct pts as [pts|]; [|exact Logic.I].
        destruct (party_view I c lag1 lag2 pts sh) as [v|e|r|] eqn:Ev; cbn [bind sim]; auto.
        apply party_view_len in Ev as [La Lb]. destruct (write_view fa fb acc a0 b0 cs0 v ltac:(lia) HW La Lb) as (s' & Es & Ws). rewrite Es.
        exists s'. split; [reflexivity|]. split; [exact Ws|]. apply HN'. split; [discriminate|lia].
    - split; [|intros [|p] ov E; discriminate E]. split; [|split; [|split]].
      + eapply holds_ext; [exact Ha|]. intros r p _ _. cbn [map]. rewrite rowfill_nil. reflexivity.
      + eapply holds_ext; [exact Hb|]. intros r p _ _. cbn [map]. rewrite rowfill_nil. reflexivity.
      + cbn [map length app]. rewrite Nat.sub_0_r. reflexivity.
      + intros v []. }
  intros known [[a1 b1] cs1] _ (Lk & [(Wa & Wb & Wc & WL) HN]). cbn [app] in *. rewrite Lk, Nat.sub_diag in Wc. cbn [repeat] in Wc. rewrite app_nil_r in Wc.
  cbv beta iota. rewrite set_ok by (rewrite Wc, map_length; lia). cbn [bind].
  apply sim_same. intros Sa ESa. apply sim_same. intros Sb ESb.
  assert (LSa : length Sa = m) by (apply mapM_length in ESa; rewrite seq_length in ESa; exact ESa).
  assert (LSb : length Sb = m) by (apply mapM_length in ESb; rewrite seq_length in ESb; exact ESb).
  assert (WLa : forall v, In (Some v) known -> length (v_a v) = m) by (intros; apply WL; assumption).
  assert (WLb : forall v, In (Some v) known -> length (v_b v) = m) by (intros; apply WL; assumption).
  assert (GS : forall l S0 j, mapM (get l) (seq 0 m) = Ok S0 -> j < m -> @get N l j = Ok (nth j S0 0%N)).
  { intros l S0 j E Hj. apply mapM_ok_inv in E.
    assert (F : forall k s S0, Forall2 (fun a b => get l a = Ok b) (seq s k) S0 -> forall i, i < k -> @get N l (s + i) = Ok (nth i S0 0%N)).
    { clear. induction k; intros s S0 F i Hi; [lia|]. cbn [seq] in F. inversion F; subst. destruct i; [rewrite Nat.add_0_r; assumption|].
      cbn [nth]. replace (s + Datatypes.S i) with (Datatypes.S s + i) by lia. apply IHk; [assumption|lia]. }
    exact (F m 0 S0 E j Hj). }
  assert (Lists : forall sel l S0, mapM (get l) (seq 0 m) = Ok S0 -> length S0 = m -> (forall v, In (Some v) known -> length (sel v) = m) ->
    mapM (fun j => do x <- get l j; foldM (fun acc ov => match ov with None => Ok acc | Some v => do y <- get (sel v) j; Ok (gadd acc y) end) known x) (seq 0 m) =
    Ok (adds sel known S0)).
  { intros sel l S0 E L0 HL. rewrite (adds_elem sel m) by assumption. apply mapM_ok. intros j Hj. apply in_seq in Hj.
    rewrite (GS l S0 j E) by lia. cbn [bind]. apply (sum_elem sel m); [exact HL|lia]. }
  rewrite (Lists v_a (p_S_at_R proof) Sa ESa LSa WLa). cbn [bind]. rewrite (Lists v_b (p_T_at_R proof) Sb ESb LSb WLb). cbn [bind].
  destruct (holds_fill _ _ _ _ _ rep missing Sa Wa Hr Hm LSa) as (a2 & Ea2 & Ha2). rewrite Ea2. cbn [bind].
  destruct (holds_fill _ _ _ _ _ rep missing Sb Wb Hr Hm LSb) as (b2 & Eb2 & Hb2). rewrite Eb2. cbn [bind].
  destruct (sub_loop missing known (rowfill fa rep (map slot_a known)) (rowfill fb rep (map slot_b known)) cs1 Hm Lk) with (l := known) (s := 0) (x := Sa) (y := Sb)
    (z := p_P_at_R proof) (a := a2) (b := b2) as (a3 & b3 & E3 & Ha3 & Hb3); try assumption; try reflexivity.
  - rewrite Wc, map_length. exact Lk.
  - intros p E. apply (HN p None E). reflexivity.
  - intros p v E. assert (Hp : p < n) by (rewrite <- Lk; apply nth_error_Some; congruence).
    assert (Nm : p <> missing) by (intros Ep; apply (HN p (Some v) E) in Ep; discriminate).
    split; [exact Nm|]. rewrite !rowfill_at by (rewrite map_length; lia).
    assert (M : forall {B} (f : option view -> B) d, nth p (map f known) d = f (Some v)).
    { intros B f d. apply nth_error_nth. rewrite nth_error_map, E. reflexivity. }
    rewrite !M. cbn [slot_a slot_b]. split; [reflexivity|]. split; [reflexivity|]. split.
    + subst cs1. unfold get. rewrite nth_error_map, E. reflexivity.
    + apply WL. eapply nth_error_In. exact E.
  - rewrite Lk in E3. unfold sub_step in E3. rewrite E3. cbn [bind]. apply sim_ok.
    set (mv := (adds v_a known Sa, adds v_b known Sb, addc known (p_P_at_R proof)) : view).
    assert (EV : forall (B : Type) (s0 : option view -> B) (f : view -> B), (forall v, s0 (Some v) = f v) ->
      map f (map (fun ov => match ov with None => mv | Some v => v end) known) = upd (map s0 known) missing (f mv)).
    { intros B s0 f Hs. rewrite map_map. apply list_eq_nth; [rewrite upd_length, !map_length; reflexivity|]. rewrite map_length. intros i Hi d.
      rewrite nth_upd, map_length. destruct (nth_error known i) as [ov|] eqn:Ei; [|apply nth_error_None in Ei; lia].
      rewrite (nth_error_nth (map _ known) i d (x := f (match ov with None => mv | Some v => v end))) by (rewrite nth_error_map, Ei; reflexivity).
      destruct (HN i ov Ei) as [N1 N2]. destruct ov as [v|].
      - destruct (Nat.eqb_spec i missing) as [Eq|]; [discriminate (N2 Eq)|]. rewrite andb_false_r || cbn [andb].
        symmetry. rewrite <- Hs. apply nth_error_nth. rewrite nth_error_map, Ei. reflexivity.
      - rewrite (N1 eq_refl), Nat.eqb_refl, (proj2 (Nat.ltb_lt _ _)) by lia. reflexivity. }
    split; [reflexivity|]. cbn [fst snd]. split; [|split; [|split]].
    + subst cs1. symmetry. exact (EV N slot_c v_c (fun _ => eq_refl)).
    + rewrite map_length. exact Lk.
    + eapply holds_ext; [exact Ha3|]. intros r p _ _. etransitivity; [apply rowfill_upd; rewrite map_length; lia|].
      exact (f_equal (fun X => rowfill fa rep X r p) (eq_sym (EV _ slot_a v_a (fun _ => eq_refl)))).
    + eapply holds_ext; [exact Hb3|]. intros r p _ _. etransitivity; [apply rowfill_upd; rewrite map_length; lia|].
      exact (f_equal (fun X => rowfill fb rep X r p) (eq_sym (EV _ slot_b v_b (fun _ => eq_refl)))).
Qed.

(** the opened values are sums over all parties *)
Lemma sum_all (sel : view -> list N) j l x :
  foldM (fun acc v => do y <- get (sel v) j; Ok (gadd acc y)) l x =
  foldM (fun acc ov => match ov with None => Ok acc | Some v => do y <- get (sel v) j; Ok (gadd acc y) end) (map Some l) x.
Proof. revert x. induction l as [|v l IH]; intros x; cbn [foldM map]; [reflexivity|]. destruct (get (sel v) j); cbn [bind]; auto. Qed.
Lemma open_loop a b cs Fa Fb l : forall (pre : list view) x y z,
  length pre + length l = n -> length x = m -> length y = m ->
  (forall p v, nth_error (pre ++ l) p = Some v -> Fa rep p = v_a v /\ Fb rep p = v_b v /\ get cs p = Ok (v_c v)) ->
  holds a T n m Fa -> holds b T n m Fb ->
  foldM (fun s party => let '(x, y, z) := s in do w <- get cs party; do ap <- k_get a rep party; do bp <- k_get b rep party;
    Ok (xorl x ap, xorl y bp, gadd z w)) (seq (length pre) (length l)) (x, y, z) =
  Ok (adds v_a (map Some l) x, adds v_b (map Some l) y, addc (map Some l) z).
Proof.
  induction l as [|v l IH]; intros pre x y z L Lx Ly HF Ha Hb; [reflexivity|].
  change (seq (length pre) (length (v :: l))) with (length pre :: seq (S (length pre)) (length l)). cbn [foldM].
  destruct (HF (length pre) v) as (Ea & Eb & Ec); [rewrite nth_error_app2, Nat.sub_diag by lia; reflexivity|]. cbn [length] in L.
  assert (Hp : length pre < n) by lia.
  rewrite Ec, (holds_get _ _ _ _ _ rep _ Ha Hr Hp), (holds_get _ _ _ _ _ rep _ Hb Hr Hp), Ea, Eb. cbn [bind].
  pose proof (holds_len _ _ _ _ _ rep _ Ha Hr Hp) as La. pose proof (holds_len _ _ _ _ _ rep _ Hb Hr Hp) as Lb. rewrite Ea in La. rewrite Eb in Lb.
  specialize (IH (pre ++ [v]) (xorl x (v_a v)) (xorl y (v_b v)) (gadd z (v_c v))). rewrite app_length in IH. cbn [length] in IH.
  replace (length pre + 1) with (S (length pre)) in IH by lia. refine (IH _ _ _ _ Ha Hb); [lia|apply xorl_length_eq; assumption|apply xorl_length_eq; assumption|].
  intros p v0 E. apply HF. rewrite <- app_assoc in E. exact E.
Qed.

Lemma sign_phase5_sim pre1 pre2 R ph3 a b fa fb : holds a T n m fa -> holds b T n m fb ->
  sim (rep5 fa fb) (sign_phase5 I c pre1 pre2 R ph3) (m_sign_phase5 I c pre1 pre2 R ph3 rep (a, b)).
Proof.
  intros Ha Hb. unfold sign_phase5, m_sign_phase5. apply sim_same. intros lag1 _. apply sim_same. intros lag2 _.
  eapply sim_bind.
  { apply (sim_loop (fun acc s => written fa fb (map Some acc) s)) with (s := 0) (acc := []) (n := n); [|reflexivity|].
    - intros acc [[a0 b0] cs0] L HW. cbv beta. apply sim_same. intros pts _. apply sim_same. intros sh _.
      destruct (party_view I c lag1 lag2 pts sh) as [v|e|r|] eqn:Ev; cbn [bind sim]; auto.
      apply party_view_len in Ev as [La Lb].
      destruct (write_view fa fb (map Some acc) a0 b0 cs0 v) as (s' & Es & Ws); [rewrite map_length; lia|exact HW|exact La|exact Lb|].
      rewrite map_length in Es. rewrite Es. exists s'. split; [reflexivity|]. rewrite map_app. exact Ws.
    - split; [|split; [|split]].
      + eapply holds_ext; [exact Ha|]. intros r p _ _. cbn [map]. rewrite rowfill_nil. reflexivity.
      + eapply holds_ext; [exact Hb|]. intros r p _ _. cbn [map]. rewrite rowfill_nil. reflexivity.
      + cbn [map length app]. rewrite Nat.sub_0_r. reflexivity.
      + intros v []. }
  intros views [[a1 b1] cs1] _ (Lk & (Wa & Wb & Wc & WL)). cbn [app] in *. rewrite map_length, Lk, Nat.sub_diag in Wc. cbn [repeat] in Wc. rewrite app_nil_r in Wc.
  rewrite map_map in Wa, Wb, Wc. cbv beta iota.
  assert (Ma : map (fun x => slot_a (Some x)) views = map v_a views) by reflexivity.
  assert (Mb : map (fun x => slot_b (Some x)) views = map v_b views) by reflexivity.
  rewrite Ma in Wa. rewrite Mb in Wb. change (map (fun x => slot_c (Some x)) views) with (map v_c views) in Wc.
  assert (WLa : forall v, In (Some v) (map Some views) -> length (v_a v) = m) by (intros; apply WL; assumption).
  assert (WLb : forall v, In (Some v) (map Some views) -> length (v_b v) = m) by (intros; apply WL; assumption).
  assert (Z : length (repeat 0%N m) = m) by apply repeat_length.
  assert (NZ : forall j, nth j (repeat 0%N m) 0%N = 0%N) by (clear; intros j; revert j; induction m; destruct j; cbn; auto).
  assert (Lists : forall sel, (forall v, In (Some v) (map Some views) -> length (sel v) = m) ->
    mapM (fun j => foldM (fun acc v => do y <- get (sel v) j; Ok (gadd acc y)) views 0%N) (seq 0 m) = Ok (adds sel (map Some views) (repeat 0%N m))).
  { intros sel HL. rewrite (adds_elem sel m) by assumption. apply mapM_ok. intros j Hj. apply in_seq in Hj. rewrite sum_all, (sum_elem sel m) by (assumption || lia).
    rewrite NZ. reflexivity. }
  rewrite (Lists v_a WLa), (Lists v_b WLb). cbn [bind].
  pose proof (open_loop a1 b1 cs1 (rowfill fa rep (map v_a views)) (rowfill fb rep (map v_b views)) views [] (repeat 0%N m) (repeat 0%N m) 0%N) as OL.
  cbn [length Nat.add app] in OL. rewrite Lk in OL. rewrite OL; [|reflexivity|exact Z|exact Z| |exact Wa|exact Wb].
  - cbn [bind]. apply sim_ok. split; [|split; [|split; [|split]]]; cbn [fst snd]; try assumption. f_equal.
    clear. unfold addc. generalize 0%N. induction views as [|v l IH]; intros z; [reflexivity|]. cbn [map fold_left]. apply IH.
  - intros p v E. assert (Hp : p < length views) by (apply nth_error_Some; congruence). rewrite !rowfill_at by (rewrite map_length; exact Hp).
    split; [|split].
    + apply nth_error_nth. rewrite nth_error_map, E. reflexivity.
    + apply nth_error_nth. rewrite nth_error_map, E. reflexivity.
    + subst cs1. unfold get. rewrite nth_error_map, E. reflexivity.
Qed.
End Phase5.
