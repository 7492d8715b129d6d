(** Counting the outputs after which the drawing of challenges and keys goes on (C77). *)
From Coq Require Import Arith NArith List Bool Lia.
From Verif Require Import Prelude ListSum AesBase AesKs AesPlain AesApi AesShares Unbias LateSpec.
Import ListNotations.

(** *** the formula *)
Lemma choose_0 n : choose n 0 = 1.
Proof. destruct n; reflexivity. Qed.
Lemma choose_small n : forall k, n < k -> choose n k = 0.
Proof. induction n as [|n IH]; intros [|k] Hk; try lia; [reflexivity|]. cbn [choose]. rewrite !IH by lia. reflexivity. Qed.
Lemma choose_diag n : choose n n = 1.
Proof. induction n; [reflexivity|]. cbn [choose]. rewrite IHn, choose_small by lia. reflexivity. Qed.
Lemma late_S a b T q : late a b (S T) q = late a b T q + choose q T * a ^ T * b ^ (q - T).
Proof. unfold late. rewrite seq_S, map_app, list_sum_app. cbn [map list_sum fold_right Nat.add]. lia. Qed.
Lemma late_0 a b q : late a b 0 q = 0.
Proof. reflexivity. Qed.
Lemma late_nil a b T : late a b (S T) 0 = 1.
Proof. induction T as [|T IH]; [reflexivity|]. rewrite late_S, IH. reflexivity. Qed.
Lemma late_step a b q : forall T, late a b (S T) (S q) = a * late a b T q + b * late a b (S T) q.
Proof.
  induction T as [|T IH].
  - rewrite !late_S, !late_0, !choose_0, !Nat.sub_0_r. cbn [Nat.pow]. lia.
  - rewrite (late_S a b (S T) (S q)), IH, (late_S a b (S T) q), (late_S a b T q). cbn [choose Nat.sub]. destruct (le_lt_dec (S T) q) as [G|G].
    + replace (q - T) with (S (q - S T)) by lia. cbn [Nat.pow]. ring.
    + rewrite (choose_small q (S T)) by lia. cbn [Nat.pow]. ring.
Qed.
(** few candidates: all sequences *)
Lemma late_all a b q : forall T, q < T -> late a b T q = (a + b) ^ q.
Proof.
  induction q as [|q IH]; intros [|T] H; try lia; [apply late_nil|]. rewrite late_step, !IH by lia. cbn [Nat.pow]. lia.
Qed.
(** no unacceptable candidates: none *)
Lemma late_none a q : forall T, T <= q -> late a 0 T q = 0.
Proof.
  induction q as [|q IH]; intros [|T] H; try lia; [apply late_0..|]. rewrite late_step, IH by lia. lia.
Qed.
Lemma late_one b a q : late a b 1 q = b ^ q.
Proof. rewrite late_S, late_0, choose_0, Nat.sub_0_r. cbn [Nat.pow]. lia. Qed.
(** T + d candidates: at least d + 1 unacceptable ones *)
Lemma late_bound a b : forall q d T, q = T + d -> late a b T q <= choose q (d + 1) * b ^ (d + 1) * (a + b) ^ (q - (d + 1)).
Proof.
  induction q as [|q IH]; intros d [|T] E; try (rewrite late_0; apply Nat.le_0_l); [lia|]. assert (Eq : q = T + d) by lia. clear E.
  rewrite late_step, (Nat.add_1_r d). cbn [choose Nat.sub].
  assert (B1 : a * late a b T q <= choose q (S d) * b ^ S d * (a + b) ^ (q - d)).
  { pose proof (IH d T Eq) as X. rewrite (Nat.add_1_r d) in X. destruct T as [|T]; [rewrite late_0; lia|]. replace (q - d) with (S (q - S d)) by lia.
    replace (_ * (a + b) ^ S (q - S d)) with ((a + b) * (choose q (S d) * b ^ S d * (a + b) ^ (q - S d))) by (cbn [Nat.pow]; lia). apply Nat.mul_le_mono; [lia|exact X]. }
  assert (B2 : b * late a b (S T) q <= choose q d * b ^ S d * (a + b) ^ (q - d)); [|lia].
  destruct d as [|d].
  - rewrite late_all by lia. rewrite choose_0, Nat.sub_0_r. cbn [Nat.pow]. lia.
  - pose proof (IH d (S T) ltac:(lia)) as X. rewrite (Nat.add_1_r d) in X.
    replace (choose q (S d) * b ^ S (S d) * (a + b) ^ (q - S d)) with (b * (choose q (S d) * b ^ S d * (a + b) ^ (q - S d))) by (cbn [Nat.pow]; lia). apply Nat.mul_le_mono; [lia|exact X].
Qed.

(** *** the count *)
Section Late.
Variables (A B : Type) (W : list A) (cand : A -> B) (good : B -> bool) (a b : nat).
Hypothesis Ha : length (filter (fun x => good (cand x)) W) = a.
Hypothesis Hb : length (filter (fun x => negb (good (cand x))) W) = b.
Definition few (T : nat) (t : list A) : bool := length (filter good (map cand t)) <? T.
Lemma sum_cases x y V : list_sum (map (fun u => if good (cand u) then x else y) V) =
  length (filter (fun u => good (cand u)) V) * x + length (filter (fun u => negb (good (cand u))) V) * y.
Proof.
  induction V as [|u V IH]; [reflexivity|]. cbn [map list_sum fold_right filter]. change (fold_right Nat.add 0) with list_sum. rewrite IH.
  destruct (good (cand u)); cbn [negb length]; lia.
Qed.
Theorem count_few q : forall T, length (filter (few T) (tuples W q)) = late a b T q.
Proof.
  induction q as [|q IH]; intros [|T].
  - reflexivity.
  - rewrite late_nil. reflexivity.
  - rewrite late_0. rewrite (filter_same _ (fun _ => false)); [generalize (tuples W (S q)); intros l; induction l; auto|]. intros t. reflexivity.
  - rewrite late_step. cbn [tuples]. rewrite filter_flat.
    rewrite (map_ext _ (fun u => if good (cand u) then late a b T q else late a b (S T) q)); [rewrite sum_cases, Ha, Hb; lia|].
    intros u. destruct (good (cand u)) eqn:G.
    + rewrite <- (IH T). f_equal. apply filter_same. intros t. unfold few. cbn [map filter]. rewrite G. cbn [length]. reflexivity.
    + rewrite <- (IH (S T)). f_equal. apply filter_same. intros t. unfold few. cbn [map filter]. rewrite G. reflexivity.
Qed.
End Late.

Section LateStrings.
Variables (B : Type) (w : nat) (cand : bytes -> B) (good : B -> bool) (a b : nat).
Hypothesis Ha : length (filter (fun x => good (cand x)) (all_strings w)) = a.
Hypothesis Hb : length (filter (fun x => negb (good (cand x))) (all_strings w)) = b.
Theorem late_strings T q : exists l : list bytes, NoDup l /\
  (forall s, In s l <-> str (q * w) s /\ length (filter good (map (fun k => cand (window w s k)) (seq 0 q))) < T) /\
  length l = late a b T q.
Proof.
  exists (map (@concat N) (filter (few _ _ cand good T) (tuples (all_strings w) q))).
  assert (SS : forall t, In t (tuples (all_strings w) q) -> length t = q /\ Forall (fun a : bytes => str w a) t).
  { intros t Ht. apply in_tuples in Ht. destruct Ht as [L F]. split; [exact L|]. rewrite Forall_forall in *. intros x Hx. apply in_all_strings. apply F. exact Hx. }
  assert (LW : forall t, Forall (fun a : bytes => str w a) t -> Forall (fun a : bytes => length a = w) t).
  { intros t F. rewrite Forall_forall in *. intros x Hx. apply F. exact Hx. }
  split; [|split].
  - assert (ND : NoDup (filter (few _ _ cand good T) (tuples (all_strings w) q))) by (apply NoDup_filter, NoDup_tuples, NoDup_tuples, NoDup_all_bytes).
    assert (IN : forall t, In t (filter (few _ _ cand good T) (tuples (all_strings w) q)) -> length t = q /\ Forall (fun a : bytes => length a = w) t).
    { intros t Ht. apply filter_In in Ht. destruct (SS t (proj1 Ht)) as [L F]. split; [exact L|apply LW; exact F]. }
    revert ND IN. generalize (filter (few _ _ cand good T) (tuples (all_strings w) q)). clear.
    induction 1 as [|t l Ht Hl IH]; intros IN; cbn [map]; [constructor|]. constructor; [|apply IH; intros u Hu; apply IN; right; exact Hu].
    intros Q. apply in_map_iff in Q. destruct Q as (u & E & Hu). apply Ht. replace t with u; [exact Hu|].
    destruct (IN t (or_introl eq_refl)) as [L1 F1]. destruct (IN u (or_intror Hu)) as [L2 F2].
    rewrite <- (windows_concat w u F2), <- (windows_concat w t F1), E, L1, L2. reflexivity.
  - intros s. rewrite in_map_iff. split.
    + intros (t & <- & Ht). apply filter_In in Ht. destruct Ht as [Ht D]. destruct (SS t Ht) as [L F]. apply Nat.ltb_lt in D. split.
      * clear - L F. subst q. induction F as [|x t Hx F IH]; [split; [reflexivity|constructor]|]. cbn [concat length Nat.mul]. split; [rewrite app_length, (proj1 IH), (proj1 Hx); reflexivity|].
        apply is_bytes_app; [apply Hx|apply IH].
      * rewrite <- (map_map (window w (concat t)) cand). rewrite <- L. rewrite (windows_concat w t (LW t F)). exact D.
    + intros [Hs D]. exists (map (window w s) (seq 0 q)). split; [apply concat_windows; apply Hs|]. apply filter_In. split.
      * apply in_tuples. split; [rewrite map_length, seq_length; reflexivity|]. apply Forall_map, Forall_forall. intros k Hk. apply in_seq in Hk. apply in_all_strings. apply (window_str w q); [exact Hs|lia].
      * apply Nat.ltb_lt. rewrite map_map. exact D.
  - rewrite map_length. apply count_few; assumption.
Qed.
End LateStrings.

(** *** counting by the values *)
Lemma filter_split {X} (P : X -> bool) l : length (filter P l) + length (filter (fun x => negb (P x)) l) = length l.
Proof. induction l as [|x l IH]; [reflexivity|]. cbn [filter]. destruct (P x); cbn [negb length]; lia. Qed.
Lemma filter_disj {X} (P Q : X -> bool) l : (forall x, P x = true -> Q x = false) -> length (filter (fun x => P x || Q x) l) = length (filter P l) + length (filter Q l).
Proof.
  intros D. induction l as [|x l IH]; [reflexivity|]. cbn [filter]. pose proof (D x). destruct (P x); cbn [orb length]; [rewrite (H eq_refl); cbn [length]; lia|]. destruct (Q x); cbn [length]; lia.
Qed.
(** the windows whose candidate is one of the values vs, when each value has C windows *)
Lemma count_values {A B} (dec : forall x y : B, {x = y} + {x <> y}) (W : list A) (cand : A -> B) C vs : NoDup vs -> (forall v, In v vs -> fibre A B dec W cand v = C) ->
  length (filter (fun x => existsb (eqB B dec (cand x)) vs) W) = length vs * C.
Proof.
  induction 1 as [|v vs Hv ND IH]; intros F.
  - cbn [existsb length Nat.mul]. clear F. induction W; [reflexivity|assumption].
  - cbn [existsb length Nat.mul]. rewrite (filter_disj (fun x => eqB B dec (cand x) v)).
    + rewrite IH by (intros u Hu; apply F; right; exact Hu). f_equal. apply F. left. reflexivity.
    + intros x Hx. apply eqB_true in Hx. apply not_true_iff_false. intros Q. apply existsb_exists in Q. destruct Q as (u & Hu & E). apply eqB_true in E. apply Hv. congruence.
Qed.
