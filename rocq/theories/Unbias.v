(** Counting the byte strings from which rejection sampling draws given values (C62). *)
From Coq Require Import Arith NArith List Bool Lia FinFun.
From Verif Require Import Prelude ListSum AesBase AesKs AesPlain AesApi AesShares.
Import ListNotations.

(** the candidates that are accepted, and the first T of them *)
Definition drawn {B} (good : B -> bool) (T : nat) (cands : list B) : list B := firstn T (filter good cands).

(** all lists of q elements of W *)
Fixpoint tuples {A} (W : list A) (q : nat) : list (list A) :=
  match q with O => [[]] | S q' => flat_map (fun a => map (cons a) (tuples W q')) W end.
Lemma in_tuples {A} (W : list A) q : forall t, In t (tuples W q) <-> length t = q /\ Forall (fun a => In a W) t.
Proof.
  induction q as [|q IH]; intros t; cbn [tuples].
  - split; [intros [<-|[]]; split; [reflexivity|constructor]|]. intros [L _]. destruct t; [left; reflexivity|discriminate L].
  - rewrite in_flat_map. split.
    + intros (a & Ha & Ht). apply in_map_iff in Ht. destruct Ht as (u & <- & Hu). apply IH in Hu. destruct Hu as [L F]. split; [cbn; lia|constructor; assumption].
    + intros [L F]. destruct t as [|a t]; [discriminate L|]. inversion F; subst. exists a. split; [assumption|]. apply in_map. apply IH. split; [cbn in L; lia|assumption].
Qed.
Lemma NoDup_flat_cons {A} (W : list A) (X : list (list A)) : NoDup W -> NoDup X -> NoDup (flat_map (fun a => map (cons a) X) W).
Proof.
  intros HW HX. induction HW as [|a W Ha HW IH]; cbn [flat_map]; [constructor|].
  assert (G : forall (l1 l2 : list (list A)), NoDup l1 -> NoDup l2 -> (forall x, In x l1 -> ~ In x l2) -> NoDup (l1 ++ l2)).
  { induction 1 as [|x l1 Hx Hn IHn]; intros H2 D; [exact H2|]. cbn [app]. constructor.
    - rewrite in_app_iff. intros [Q|Q]; [contradiction|]. apply (D x); [left; reflexivity|exact Q].
    - apply IHn; [exact H2|]. intros y Hy. apply D. right. exact Hy. }
  apply G; [apply FinFun.Injective_map_NoDup; [intros x y E; injection E; auto|exact HX]|exact IH|].
  intros t Ht Q. apply in_map_iff in Ht. destruct Ht as (u & <- & _). apply in_flat_map in Q. destruct Q as (b & Hb & Q). apply in_map_iff in Q.
  destruct Q as (u' & E & _). injection E as -> _. contradiction.
Qed.
Lemma NoDup_tuples {A} (W : list A) q : NoDup W -> NoDup (tuples W q).
Proof. intros HW. induction q; cbn [tuples]; [repeat constructor; intros []|apply NoDup_flat_cons; assumption]. Qed.
Lemma length_tuples {A} (W : list A) q : length (tuples W q) = length W ^ q.
Proof.
  induction q; [reflexivity|]. cbn [tuples Nat.pow]. rewrite <- IHq. clear IHq. generalize (tuples W q). intros X. induction W; [reflexivity|].
  cbn [flat_map]. rewrite app_length, map_length, IHW. reflexivity.
Qed.

(** the number of tuples that draw T given values *)
Section Count.
Variables (A B : Type) (dec : forall x y : B, {x = y} + {x <> y}) (W : list A) (cand : A -> B) (good : B -> bool) (C : nat).
Definition eqB (x y : B) : bool := if dec x y then true else false.
Lemma eqB_true x y : eqB x y = true <-> x = y.
Proof. unfold eqB. destruct (dec x y); split; congruence. Qed.
Definition fibre (b : B) : nat := length (filter (fun a => eqB (cand a) b) W).
Variable value : B -> Prop.
Hypothesis HC : forall b, value b -> fibre b = C.
Hypothesis HG : forall b, value b -> good b = true.
Definition bad : nat := length (filter (fun a => negb (good (cand a))) W).
Fixpoint ways (T q : nat) : nat :=
  match T, q with
  | O, _ => length W ^ q
  | S T', O => 0
  | S T', S q' => C * ways T' q' + bad * ways (S T') q'
  end.
Definition draws (T : nat) (ms : list B) (t : list A) : bool := if list_eq_dec dec (drawn good T (map cand t)) ms then true else false.
Lemma draws_true T ms t : draws T ms t = true <-> drawn good T (map cand t) = ms.
Proof. unfold draws. destruct (list_eq_dec dec _ _); split; congruence. Qed.
Lemma filter_flat (P : list A -> bool) X : forall V, length (filter P (flat_map (fun a => map (cons a) X) V)) = list_sum (map (fun a => length (filter (fun t => P (a :: t)) X)) V).
Proof.
  induction V as [|a V IH]; [reflexivity|]. cbn [flat_map map list_sum fold_right]. rewrite filter_app, app_length, IH. f_equal. clear.
  induction X as [|x X IH]; [reflexivity|]. cbn [map filter]. destruct (P (a :: x)); cbn [length]; rewrite IH; reflexivity.
Qed.
Lemma filter_same {X} (P Q : X -> bool) l : (forall x, P x = Q x) -> filter P l = filter Q l.
Proof. intros E. induction l as [|x l IH]; [reflexivity|]. cbn [filter]. rewrite E, IH. reflexivity. Qed.
Lemma sum_split (x y : nat) m V : good m = true ->
  list_sum (map (fun a => if good (cand a) then if eqB (cand a) m then x else 0 else y) V) =
  length (filter (fun a => eqB (cand a) m) V) * x + length (filter (fun a => negb (good (cand a))) V) * y.
Proof.
  intros Gm. induction V as [|a V IH]; [reflexivity|]. cbn [map list_sum fold_right filter]. change (fold_right Nat.add 0) with list_sum. rewrite IH.
  destruct (good (cand a)) eqn:G; cbn [negb].
  - destruct (eqB (cand a) m); cbn [length]; lia.
  - destruct (eqB (cand a) m) eqn:E; [apply eqB_true in E; rewrite E in G; congruence|]. cbn [length]. lia.
Qed.
Theorem count_draws q : forall ms, Forall value ms -> length (filter (draws (length ms) ms) (tuples W q)) = ways (length ms) q.
Proof.
  induction q as [|q IH]; intros ms Hms.
  - destruct ms as [|m ms]; cbn [tuples length ways filter].
    + unfold draws, drawn. cbn [firstn]. destruct (list_eq_dec dec [] []); [reflexivity|contradiction].
    + unfold draws, drawn. cbn. destruct (list_eq_dec dec [] (m :: ms)); [discriminate|reflexivity].
  - destruct ms as [|m ms].
    + cbn [length]. replace (filter (draws 0 []) (tuples W (S q))) with (tuples W (S q)); [apply length_tuples|]. symmetry.
      rewrite (filter_same _ (fun _ => true)); [generalize (tuples W (S q)); intros l; induction l as [|x l IHl]; [reflexivity|cbn [filter]; rewrite IHl; reflexivity]|].
      intros t. apply draws_true. reflexivity.
    + inversion Hms as [|? ? Hm Hms']; subst. cbn [tuples length ways]. rewrite filter_flat.
      rewrite (map_ext _ (fun a => if good (cand a) then if eqB (cand a) m then ways (length ms) q else 0 else ways (S (length ms)) q)).
      * rewrite sum_split by (apply HG; exact Hm). fold (fibre m). fold bad. rewrite (HC m Hm). reflexivity.
      * intros a. destruct (good (cand a)) eqn:G.
        -- destruct (eqB (cand a) m) eqn:E.
           ++ apply eqB_true in E. rewrite <- (IH ms Hms'). f_equal. apply filter_same. intros t. apply eq_true_iff_eq. rewrite !draws_true.
              unfold drawn. cbn [map filter]. rewrite G. cbn [firstn]. rewrite E. split; [intros Q; injection Q; auto|intros ->; reflexivity].
           ++ rewrite (filter_same _ (fun _ => false)); [generalize (tuples W q); intros l; induction l; auto|]. intros t. apply not_true_iff_false. rewrite draws_true.
              unfold drawn. cbn [map filter]. rewrite G. cbn [firstn]. intros Q. injection Q as Q _. apply eqB_true in Q. congruence.
        -- change (S (length ms)) with (length (m :: ms)). rewrite <- (IH (m :: ms) Hms). f_equal. apply filter_same. intros t. apply eq_true_iff_eq. rewrite !draws_true. cbn [length].
           unfold drawn. cbn [map filter]. rewrite G. reflexivity.
Qed.
Lemma ways_pos T : forall q, 1 <= C -> W <> [] -> T <= q -> 1 <= ways T q.
Proof.
  induction T as [|T IH]; intros q HC1 HW Hq.
  - assert (length W <> 0) by (destruct W; [contradiction|discriminate]). replace (ways 0 q) with (length W ^ q) by (destruct q; reflexivity). apply Nat.neq_0_lt_0, Nat.pow_nonzero. assumption.
  - destruct q as [|q]; [lia|]. cbn [ways]. pose proof (IH q HC1 HW ltac:(lia)). nia.
Qed.
Lemma ways_exact T : bad = 0 -> ways T T = C ^ T.
Proof. intros Hb. induction T; [reflexivity|]. cbn [ways Nat.pow]. rewrite IHT, Hb. lia. Qed.
End Count.

(** *** byte strings as tuples of windows *)
Definition all_bytes : list N := map N.of_nat (seq 0 256).
Lemma in_all_bytes b : In b all_bytes <-> (b < 256)%N.
Proof.
  unfold all_bytes. rewrite in_map_iff. split; [intros (i & <- & Hi); apply in_seq in Hi; lia|]. intros Hb. exists (N.to_nat b). split; [lia|]. apply in_seq. lia.
Qed.
Lemma NoDup_all_bytes : NoDup all_bytes.
Proof. apply FinFun.Injective_map_NoDup; [intros x y; apply Nat2N.inj|apply seq_NoDup]. Qed.
Definition all_strings (L : nat) : list bytes := tuples all_bytes L.
Lemma in_all_strings L s : In s (all_strings L) <-> str L s.
Proof.
  etransitivity; [apply (in_tuples all_bytes L s)|]. unfold str, is_bytes, is_byte. split; intros [A F]; split; try exact A; rewrite Forall_forall in *; intros b Hb; apply in_all_bytes; apply F; exact Hb.
Qed.
Lemma length_all_strings L : length (all_strings L) = 256 ^ L.
Proof. etransitivity; [apply (length_tuples all_bytes L)|]. unfold all_bytes. rewrite map_length, seq_length. reflexivity. Qed.

Definition window (w : nat) (s : bytes) (k : nat) : bytes := slice s (k * w) w.
Lemma windows_concat w : forall t, Forall (fun a : bytes => length a = w) t -> map (window w (concat t)) (seq 0 (length t)) = t.
Proof.
  induction t as [|a t IH]; intros F; [reflexivity|]. inversion F as [|? ? Ha Ft]; subst. cbn [length seq map]. f_equal.
  - unfold window, slice. cbn [Nat.mul skipn concat]. rewrite firstn_app, firstn_all, Nat.sub_diag. cbn [firstn]. apply app_nil_r.
  - rewrite <- seq_shift, map_map. etransitivity; [|exact (IH Ft)]. apply map_ext. intros k. unfold window, slice. cbn [concat Nat.mul].
    rewrite skipn_app. rewrite skipn_all2 by lia. cbn [app]. do 2 f_equal. lia.
Qed.
Lemma concat_windows w : forall q s, length s = q * w -> concat (map (window w s) (seq 0 q)) = s.
Proof.
  induction q as [|q IH]; intros s L; [destruct s; [reflexivity|discriminate L]|]. cbn [seq map concat]. rewrite <- seq_shift, map_map.
  etransitivity; [|exact (firstn_skipn w s)]. f_equal.
  etransitivity; [|apply (IH (skipn w s)); rewrite skipn_length; cbn in L; lia]. f_equal. apply map_ext. intros k. unfold window, slice. cbn [Nat.mul]. f_equal.
  rewrite Nat.add_comm. clear. revert s. generalize (k * w). induction w as [|w IH]; intros m s; [rewrite Nat.add_0_r; reflexivity|].
  destruct s; [rewrite !skipn_nil; reflexivity|]. rewrite Nat.add_succ_r. cbn [skipn]. apply IH.
Qed.
Lemma window_str w q s k : str (q * w) s -> k < q -> str w (window w s k).
Proof.
  intros [L F] Hk. unfold window, slice. split.
  - rewrite firstn_length, skipn_length, L. assert (k * w + w <= q * w) by nia. lia.
  - apply is_bytes_firstn, is_bytes_skipn. exact F.
Qed.

(** the strings of q windows from which ms is drawn *)
Section Strings.
Variables (B : Type) (dec : forall x y : B, {x = y} + {x <> y}) (w : nat) (cand : bytes -> B) (good : B -> bool) (C : nat) (value : B -> Prop).
Hypothesis HC : forall b, value b -> fibre _ _ dec (all_strings w) cand b = C.
Hypothesis HG : forall b, value b -> good b = true.
Theorem count_strings q ms : Forall value ms -> exists l : list bytes, NoDup l /\
  (forall s, In s l <-> str (q * w) s /\ drawn good (length ms) (map (fun k => cand (window w s k)) (seq 0 q)) = ms) /\
  length l = ways _ _ (all_strings w) cand good C (length ms) q.
Proof.
  intros Hms. exists (map (@concat N) (filter (draws _ _ dec cand good (length ms) ms) (tuples (all_strings w) q))).
  assert (S : forall t, In t (tuples (all_strings w) q) -> length t = q /\ Forall (fun a : bytes => str w a) t).
  { intros t Ht. apply in_tuples in Ht. destruct Ht as [L F]. split; [exact L|]. rewrite Forall_forall in *. intros a Ha. apply in_all_strings. apply F. exact Ha. }
  assert (LW : forall t, Forall (fun a : bytes => str w a) t -> Forall (fun a : bytes => length a = w) t).
  { intros t F. rewrite Forall_forall in *. intros a Ha. apply F. exact Ha. }
  split; [|split].
  - assert (ND : NoDup (filter (draws _ _ dec cand good (length ms) ms) (tuples (all_strings w) q))) by (apply NoDup_filter, NoDup_tuples, NoDup_tuples, NoDup_all_bytes).
    assert (IN : forall t, In t (filter (draws _ _ dec cand good (length ms) ms) (tuples (all_strings w) q)) -> length t = q /\ Forall (fun a : bytes => length a = w) t).
    { intros t Ht. apply filter_In in Ht. destruct (S t (proj1 Ht)) as [L F]. split; [exact L|apply LW; exact F]. }
    revert ND IN. generalize (filter (draws _ _ dec cand good (length ms) ms) (tuples (all_strings w) q)). clear.
    induction 1 as [|t l Ht Hl IH]; intros IN; cbn [map]; [constructor|]. constructor; [|apply IH; intros u Hu; apply IN; right; exact Hu].
    intros Q. apply in_map_iff in Q. destruct Q as (u & E & Hu). apply Ht. replace t with u; [exact Hu|].
    destruct (IN t (or_introl eq_refl)) as [L1 F1]. destruct (IN u (or_intror Hu)) as [L2 F2].
    rewrite <- (windows_concat w u F2), <- (windows_concat w t F1), E, L1, L2. reflexivity.
  - intros s. rewrite in_map_iff. split.
    + intros (t & <- & Ht). apply filter_In in Ht. destruct Ht as [Ht D]. destruct (S t Ht) as [L F]. apply draws_true in D. split.
      * clear - L F. subst q. induction F as [|a t Ha F IH]; [split; [reflexivity|constructor]|]. cbn [concat length Nat.mul]. split; [rewrite app_length, (proj1 IH), (proj1 Ha); reflexivity|].
        apply is_bytes_app; [apply Ha|apply IH].
      * rewrite <- (map_map (window w (concat t)) cand). rewrite <- L. rewrite (windows_concat w t (LW t F)). exact D.
    + intros [Hs D]. exists (map (window w s) (seq 0 q)). split; [apply concat_windows; apply Hs|]. apply filter_In. split.
      * apply in_tuples. split; [rewrite map_length, seq_length; reflexivity|]. apply Forall_map, Forall_forall. intros k Hk. apply in_seq in Hk. apply in_all_strings. apply (window_str w q); [exact Hs|lia].
      * apply draws_true. rewrite map_map. exact D.
  - rewrite map_length. apply (count_draws _ _ dec (all_strings w) cand good C value HC HG). exact Hms.
Qed.
End Strings.
