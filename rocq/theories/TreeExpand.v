(** What the expansion loops of the seed tree constructors do. *)
From Coq Require Import Arith NArith List Bool Lia.
From Verif Require Import Prelude Instances HashModel TreeModel TreeSpec TreeProofs.
Import ListNotations.

(** ** Slots of the flat vector *)
Lemma slice_app_l {A} (a b : list A) o l : o + l <= length a -> slice (a ++ b) o l = slice a o l.
Proof.
  intros H. unfold slice. rewrite skipn_app, firstn_app, skipn_length.
  replace (l - (length a - o)) with 0 by lia. rewrite firstn_O. apply app_nil_r.
Qed.
Lemma slice_app_r {A} (a b : list A) o l : length a <= o -> slice (a ++ b) o l = slice b (o - length a) l.
Proof. intros H. unfold slice. rewrite skipn_app, skipn_all2 by assumption. reflexivity. Qed.
Lemma slice_whole {A} (a : list A) l : l = length a -> slice a 0 l = a.
Proof. intros ->. unfold slice. apply firstn_all. Qed.
Lemma skipn_add {A} a : forall b (l : list A), skipn a (skipn b l) = skipn (b + a) l.
Proof. induction b; intros [|x l]; cbn; auto; rewrite ?skipn_nil; auto. Qed.
Lemma cut {A} (d : list A) o l : o + l <= length d -> d = firstn o d ++ slice d o l ++ skipn (o + l) d.
Proof.
  intros H. unfold slice. rewrite <- (firstn_skipn o d) at 1. f_equal.
  rewrite <- (firstn_skipn l (skipn o d)) at 1. f_equal. apply skipn_add.
Qed.

Section Slots.
Variable ss : nat.
Definition slot (d : bytes) (n : nat) : bytes := slice d (n * ss) ss.

Lemma write_slot d total k b : length d = total * ss -> k < total -> length b = ss ->
  exists d', write_at d (k * ss) b = Ok d' /\ length d' = length d /\
  forall n, slot d' n = if n =? k then b else slot d n.
Proof.
  intros Ld Hk Lb. unfold write_at. assert (Hb : k * ss + ss <= length d) by nia.
  destruct (Nat.leb_spec (k * ss + length b) (length d)) as [_|]; [|lia]. rewrite Lb.
  eexists. split; [reflexivity|].
  assert (La : length (firstn (k * ss) d) = k * ss) by (rewrite firstn_length; lia).
  split; [rewrite !app_length, La, skipn_length; lia|]. intros n. unfold slot.
  destruct (Nat.eqb_spec n k) as [->|Hn].
  - rewrite slice_app_r by lia. rewrite La, Nat.sub_diag. rewrite slice_app_l by lia. apply slice_whole. symmetry; exact Lb.
  - rewrite (cut d (k * ss) ss Hb) at 3. destruct (Nat.lt_ge_cases n k).
    + rewrite !slice_app_l by (rewrite La; nia). reflexivity.
    + rewrite !slice_app_r by (rewrite La; nia). rewrite La.
      assert (Hs : length (slice d (k * ss) ss) = ss) by (apply slice_length; lia).
      rewrite !slice_app_r by (rewrite ?Lb, ?Hs; nia). rewrite Lb, Hs. reflexivity.
Qed.
Lemma read_slot d total k : length d = total * ss -> k < total -> read d (k * ss) ss = Ok (slot d k).
Proof. intros Ld Hk. apply read_ok. nia. Qed.
Lemma slot_length d total k : length d = total * ss -> k < total -> length (slot d k) = ss.
Proof. intros Ld Hk. apply slice_length. nia. Qed.
Lemma slot_bytes d k : is_bytes d -> is_bytes (slot d k).
Proof. apply is_bytes_slice. Qed.
End Slots.

Section Last.
Variable N : nat.
Hypothesis HN : 2 <= N.
Notation L := (depth N).
Notation first := (2 ^ depth N - 1).
Notation total := (2 ^ depth N - 1 + N).
Lemma last_eq : get_parent (total - 1) = total / 2 - 1.
Proof. unfold get_parent. f_equal. f_equal. lia. Qed.
Lemma last_first : total / 2 - 1 < first /\ 1 <= total / 2.
Proof.
  pose proof (depth_spec N HN) as [[A B] C]. pose proof (pow_pos (depth N)).
  assert (D : total / 2 < 2 ^ L) by (apply Nat.div_lt_upper_bound; lia).
  assert (E : 1 <= total / 2) by (apply Nat.div_le_lower_bound; lia). lia.
Qed.
Lemma left_exists i : i <= total / 2 - 1 -> 2 * i + 1 < total.
Proof. intros Hi. pose proof last_first. pose proof (Nat.div_mod total 2 ltac:(lia)). lia. Qed.

End Last.

(** ** The loops *)
Section Loops.
Variables (H : oracle) (salt : bytes) (rep N ss : nat).
Hypothesis HN : 2 <= N.
Hypothesis Hss : 1 <= ss <= 32.
Notation L := (depth N).
Notation first := (2 ^ depth N - 1).
Notation total := (2 ^ depth N - 1 + N).
Variable e : list bool.
Hypothesis He : forall n, flag e n = exf N n.
Variable VR : nat -> bytes -> Prop.
Hypothesis HVR : forall n s, n <> 0 -> exf N n = true -> length s = ss -> VR (parent n) s ->
  VR n (child_seed H salt rep s (parent n) (is_right n)).
Variable K0 : nat -> bool.
Hypothesis HK0 : forall n, K0 n = true -> exf N n = true.
Variable chk : bool.
Hypothesis Hchk : chk = false -> K0 0 = true.

Notation slot := (slot ss).
Definition wf (w : wstate) : Prop :=
  length (fst w) = total /\ length (fst (snd w)) = total * ss /\ length (snd (snd w)) = 64.
Definition has (w : wstate) (n : nat) : bool := flag (fst w) n.
Definition dat (w : wstate) (n : nat) : bytes := slot (fst (snd w)) n.

Record Inv (i : nat) (w : wstate) : Prop := {
  inv_wf : wf w;
  inv_val : forall n, has w n = true -> exf N n = true /\ VR n (dat w n);
  inv_has : forall n, has w n = true <->
    K0 n = true \/ (n <> 0 /\ parent n < i /\ exf N n = true /\ has w (parent n) = true) }.

Definition newb (i k : nat) (w : wstate) (n : nat) : bool :=
  negb (n =? 0) && (i <=? parent n) && (parent n <? i + k) && exf N n && has w (parent n).
(** the effect of expanding the nodes i, ..., i+k-1 *)
Record Step (i k : nat) (w w' : wstate) : Prop := {
  st_wf : wf w';
  st_has : forall n, has w' n = has w n || newb i k w n;
  st_dat : forall n, dat w' n = if newb i k w n
     then child_seed H salt rep (dat w (parent n)) (parent n) (is_right n) else dat w n }.

Lemma newb_spec i k w n : newb i k w n = true <->
  n <> 0 /\ i <= parent n < i + k /\ exf N n = true /\ has w (parent n) = true.
Proof.
  unfold newb. rewrite !andb_true_iff, negb_true_iff, Nat.eqb_neq, Nat.leb_le, Nat.ltb_lt. tauto.
Qed.

Lemma Inv_step i k w w' : i + k <= 2 * i + 1 -> Inv i w -> Step i k w w' -> Inv (i + k) w'.
Proof.
  intros Hk [Hw Hv Hh] [Hw' Sh Sd].
  assert (Hlow : forall n, n < i + k -> has w' n = has w n).
  { intros n Hn. rewrite Sh. destruct (newb i k w n) eqn:E; [|apply orb_false_r].
    apply newb_spec in E. destruct E as (E0 & E1 & _). pose proof (parent_cases n E0). lia. }
  split; auto.
  - intros n Hn. rewrite Sh in Hn. rewrite Sd. destruct (newb i k w n) eqn:E.
    + apply newb_spec in E. destruct E as (E0 & E1 & E2 & E3). split; [assumption|].
      destruct (Hv _ E3) as [X Y]. apply HVR; auto. destruct Hw as (_ & W2 & _).
      apply (slot_length ss _ _ _ W2). apply (ex_lt_total N HN _ X).
    + rewrite orb_false_r in Hn. apply Hv. assumption.
  - intros n. rewrite Sh, orb_true_iff, newb_spec, Hh. split.
    + intros [[A|(A & B & C & D)]|(A & B & C & D)]; auto; right; repeat split; auto; try lia; rewrite Hlow; auto; lia.
    + intros [A|(A & B & C & D)]; auto. rewrite Hlow in D by assumption.
      destruct (Nat.lt_ge_cases (parent n) i); [left; right|right]; repeat split; auto; lia.
Qed.

(** an existing node whose parent has been processed has a value in the first constructor *)
Lemma has_processed i w : Inv i w -> chk = false -> forall n, exf N n = true -> n = 0 \/ parent n < i -> has w n = true.
Proof.
  intros HI Hc. induction n as [n IH] using lt_wf_ind. intros Hx Hp. apply (inv_has _ _ HI).
  destruct (Nat.eq_dec n 0) as [->|H0]; [left; auto|]. right.
  destruct Hp as [|Hp]; [contradiction|]. repeat split; auto.
  apply IH; [apply parent_lt; assumption|apply ex_parent; assumption|].
  destruct (Nat.eq_dec (parent n) 0); [auto|right]. pose proof (parent_lt (parent n) ltac:(assumption)). lia.
Qed.
Lemma active_has i w n : Inv i w -> (n = 0 \/ parent n < i) -> active chk e (fst w) n = has w n.
Proof.
  intros HI Hp. unfold active. rewrite He. fold (has w n).
  assert (C : chk = true \/ chk = false) by (destruct chk; auto). destruct C as [Hc|Hc]; rewrite Hc; cbn [negb orb].
  - destruct (has w n) eqn:E; [|apply andb_false_r]. rewrite (proj1 (inv_val _ _ HI n E)). reflexivity.
  - rewrite andb_true_r. destruct (exf N n) eqn:E.
    + symmetry. apply (has_processed i w HI Hc n E Hp).
    + destruct (has w n) eqn:E2; [|reflexivity]. apply (inv_val _ _ HI) in E2. destruct E2; congruence.
Qed.

Lemma child_stream s n r : length s = ss ->
  child_seed H salt rep s n r = stream H (ss * 2 =? 32) ([HASH_PREFIX_1] ++ s ++ salt ++ le16 rep ++ le16 n) (if r then ss else 0) ss.
Proof. intros Hl. unfold child_seed. rewrite Hl. rewrite (Nat.mul_comm 2 ss). reflexivity. Qed.

Lemma node_children n i : i < total -> n <> 0 -> parent n = i -> n = 2 * i + 1 \/ n = 2 * i + 2.
Proof. intros _ H0 <-. apply parent_cases. assumption. Qed.

Lemma step1_ok i w : Inv i w -> i <= total / 2 - 1 ->
  exists w', step1 H salt rep chk e ss w i = Ok w' /\ Step i 1 w w'.
Proof.
  intros HI Hi. pose proof (left_exists N HN i Hi) as Hl. pose proof (last_first N HN) as [Hf _].
  assert (Hif : i < first) by lia.
  assert (Hp : i = 0 \/ parent i < i) by (destruct (Nat.eq_dec i 0); [auto|right; apply parent_lt; assumption]).
  pose proof (active_has i w i HI Hp) as Ha. pose proof (inv_wf _ _ HI) as (W1 & W2 & W3).
  unfold step1. destruct (has w i) eqn:Hh; destruct w as [hs [d du]]; cbn [fst snd] in *; rewrite Ha; cycle 1.
  - exists (hs, (d, du)). split; [reflexivity|].
    assert (Z : forall n, newb i 1 (hs, (d, du)) n = false).
    { intros n. destruct (newb i 1 (hs, (d, du)) n) eqn:E; [|reflexivity]. apply newb_spec in E.
      destruct E as (_ & E1 & _ & E3). replace (parent n) with i in E3 by lia. congruence. }
    split; [repeat split; assumption| |]; intros n; rewrite Z; [symmetry; apply orb_false_r|reflexivity].
  - pose proof (inv_val _ _ HI i Hh) as [Hx _].
    destruct (set_ok hs (2 * i + 1)) as (h1 & E1 & L1 & F1); [lia|]. rewrite E1. cbn [bind]. rewrite He.
    assert (Hs : length (slot d i) = ss) by (eapply slot_length; [exact W2|lia]).
    assert (NB : forall n, newb i 1 (hs, (d, du)) n = (n =? 2 * i + 1) || (n =? 2 * i + 2) && exf N (2 * i + 2)).
    { intros n. apply eq_true_iff_eq. rewrite newb_spec, orb_true_iff, andb_true_iff, !Nat.eqb_eq. split.
      - intros (A & B & C & D). assert (parent n = i) by lia. destruct (parent_cases n A) as [E|E]; [left; lia|right].
        split; [lia|]. replace (2 * i + 2) with n by lia. assumption.
      - intros [->|[-> C]].
        + rewrite parent_left. repeat split; auto; try lia. rewrite ex_left by assumption. assumption.
        + rewrite parent_right. repeat split; auto; lia. }
    assert (CS : forall r : bool, stream H (ss * 2 =? 32) ([HASH_PREFIX_1] ++ slot d i ++ salt ++ le16 rep ++ le16 i) (if r then ss else 0) ss
                  = child_seed H salt rep (slot d i) i r) by (intros r; symmetry; apply child_stream; assumption).
    pose proof (CS false) as CS0. pose proof (CS true) as CS1. cbv iota in CS0, CS1.
    destruct (exf N (2 * i + 2)) eqn:Ex2.
    + pose proof (ex_lt_total N HN _ Ex2) as Hr.
      unfold expand_seed. cbn [span_size span_read fst snd]. rewrite (read_slot ss d _ i W2) by lia. cbn [bind].
      cbn [hash_squeeze hash_update_u16 hash_update hash_init_prefix hash_init hash_final h_v h_in h_off fst snd].
      rewrite !app_nil_l, <- !app_assoc. rewrite CS0.
      unfold span_write. cbn [fst snd]. rewrite Nat.add_0_r.
      destruct (write_slot ss d total (2 * i + 1) (child_seed H salt rep (slot d i) i false) W2 Hl) as (d1 & -> & Ld1 & Sd1).
      { rewrite <- CS0. apply stream_length. }
      cbn [bind fst snd]. rewrite Nat.eqb_refl. cbn [Nat.add]. rewrite CS1.
      replace ((2 * i + 1) * ss + ss) with ((2 * i + 2) * ss) by lia.
      destruct (write_slot ss d1 total (2 * i + 2) (child_seed H salt rep (slot d i) i true) ltac:(congruence) Hr) as (d2 & -> & Ld2 & Sd2).
      { rewrite <- CS1. apply stream_length. }
      cbn [bind fst snd]. destruct (set_ok h1 (2 * i + 2)) as (h2 & -> & L2 & F2); [lia|]. cbn [bind].
      eexists. split; [reflexivity|]. split.
      * repeat split; cbn [fst snd]; try congruence.
      * intros n. rewrite NB. unfold has. cbn [fst snd]. rewrite F2, F1, andb_true_r.
        destruct (n =? 2 * i + 1), (n =? 2 * i + 2), (flag hs n); reflexivity.
      * intros n. rewrite NB. unfold dat. cbn [fst snd]. rewrite Sd2, Sd1, andb_true_r.
        destruct (Nat.eqb_spec n (2 * i + 2)) as [->|]; [|destruct (Nat.eqb_spec n (2 * i + 1)) as [->|]; [|reflexivity]].
        -- rewrite orb_true_r, parent_right, right_right. reflexivity.
        -- cbn [orb]. rewrite parent_left, right_left. reflexivity.
    + unfold expand_seed. cbn [span_size span_read fst snd]. rewrite (read_slot ss d _ i W2) by lia. cbn [bind].
      cbn [hash_squeeze hash_update_u16 hash_update hash_init_prefix hash_init hash_final h_v h_in h_off fst snd].
      rewrite !app_nil_l, <- !app_assoc. rewrite CS0.
      unfold span_write. cbn [fst snd]. rewrite Nat.add_0_r.
      destruct (write_slot ss d total (2 * i + 1) (child_seed H salt rep (slot d i) i false) W2 Hl) as (d1 & -> & Ld1 & Sd1).
      { rewrite <- CS0. apply stream_length. }
      cbn [bind fst snd]. destruct (Nat.eqb_spec ss (2 * ss)) as [|_]; [lia|]. cbn [bind].
      eexists. split; [reflexivity|]. split.
      * repeat split; cbn [fst snd]; try congruence.
      * intros n. rewrite NB. unfold has. cbn [fst snd]. rewrite F1, andb_false_r, orb_false_r. apply orb_comm.
      * intros n. rewrite NB. unfold dat. cbn [fst snd]. rewrite Sd1, andb_false_r, orb_false_r.
        destruct (Nat.eqb_spec n (2 * i + 1)) as [->|]; [|reflexivity]. rewrite parent_left, right_left. reflexivity.
Qed.

(** one 4x iteration *)
Section Batch.
Variables (dseed ddst : nat).
Variables (i : nat) (hs : list bool) (d du : bytes).
Notation w := (hs, (d, du)).
Hypothesis HI : Inv i w.
Hypothesis Hi3 : 3 <= i.
Hypothesis Hin : i + 3 < first.
Hypothesis Hd0 : dseed = ss \/ has w i = true.

Definition ld (n : nat) : span * span :=
  if has w n then (SData (n * ss) ss, SData ((2 * n + 1) * ss) (if exf N (2 * n + 2) then 2 * ss else ss))
  else (SDummy dseed, SDummy ddst).
Definition nb1 (n k : nat) : bool := has w n && ((k =? 2 * n + 1) || (k =? 2 * n + 2) && exf N (2 * n + 2)).

Lemma newb_4 k : newb i 4 w k = nb1 i k || nb1 (i + 1) k || nb1 (i + 2) k || nb1 (i + 3) k.
Proof.
  apply eq_true_iff_eq. rewrite newb_spec, !orb_true_iff. unfold nb1.
  rewrite !andb_true_iff, !orb_true_iff, !andb_true_iff, !Nat.eqb_eq. split.
  - intros (A & B & C & D). pose proof (parent_cases k A) as P.
    assert (Q : forall n, parent k = n -> has w n = true /\ (k = 2 * n + 1 \/ k = 2 * n + 2 /\ exf N (2 * n + 2) = true)).
    { intros n <-. split; [exact D|]. destruct P as [P|P]; [left; exact P|right; split; [exact P|rewrite <- P; exact C]]. }
    assert (R : parent k = i \/ parent k = i + 1 \/ parent k = i + 2 \/ parent k = i + 3) by lia.
    destruct R as [R|[R|[R|R]]]; apply Q in R; tauto.
  - assert (Q : forall n, i <= n < i + 4 -> has w n = true /\ (k = 2 * n + 1 \/ k = 2 * n + 2 /\ exf N (2 * n + 2) = true) ->
                k <> 0 /\ i <= parent k < i + 4 /\ exf N k = true /\ has w (parent k) = true).
    { intros n Hn [A [->|[-> B]]].
      - rewrite parent_left. repeat split; try lia; auto. rewrite ex_left by lia. apply (inv_val _ _ HI). assumption.
      - rewrite parent_right. repeat split; try lia; auto. }
    intros [[[Z|Z]|Z]|Z]; apply Q in Z; auto; lia.
Qed.

Lemma batch_child n : i <= n < i + 4 -> has w n = true -> n < total /\ 2 * n + 1 < total.
Proof.
  intros Hn Hh. destruct (inv_val _ _ HI n Hh) as [Hx _]. rewrite <- ex_left in Hx by lia.
  pose proof (ex_lt_total N HN _ Hx). lia.
Qed.

Lemma lane_of_ok n h lanes : i <= n < i + 4 -> length h = total -> flag h n = flag hs n ->
  exists h', lane_of chk e ss dseed ddst (h, lanes) n = Ok (h', lanes ++ [ld n]) /\ length h' = total /\
  forall k, flag h' k = flag h k || nb1 n k.
Proof.
  intros Hn Lh Hf.
  assert (Ha : active chk e h n = has w n).
  { unfold active. rewrite Hf. apply (active_has i w n HI). right.
    destruct (parent_cases n ltac:(lia)); lia. }
  unfold lane_of, ld, nb1. rewrite Ha. destruct (has w n) eqn:Hh; cbn [andb].
  - destruct (batch_child n Hn Hh) as [_ Hc].
    destruct (set_ok h (2 * n + 1)) as (h1 & -> & L1 & F1); [lia|]. cbn [bind]. rewrite He.
    destruct (exf N (2 * n + 2)) eqn:Hx.
    + pose proof (ex_lt_total N HN _ Hx).
      destruct (set_ok h1 (2 * n + 2)) as (h2 & -> & L2 & F2); [lia|]. cbn [bind].
      exists h2. split; [reflexivity|]. split; [congruence|]. intros k. rewrite F2, F1, andb_true_r.
      destruct (k =? 2 * n + 1), (k =? 2 * n + 2), (flag h k); reflexivity.
    + exists h1. split; [reflexivity|]. split; [congruence|]. intros k. rewrite F1, andb_false_r, orb_false_r. apply orb_comm.
  - exists h. split; [reflexivity|]. split; [assumption|]. intros k. symmetry. apply orb_false_r.
Qed.
Lemma nb1_high n k : i <= n -> k < i + 4 -> nb1 n k = false.
Proof.
  intros Hn Hk. unfold nb1. destruct (Nat.eqb_spec k (2 * n + 1)); [lia|].
  destruct (Nat.eqb_spec k (2 * n + 2)); [lia|]. apply andb_false_r.
Qed.
Lemma lanes_ok : exists h', foldM (lane_of chk e ss dseed ddst) [i; i + 1; i + 2; i + 3] (hs, []) =
    Ok (h', [ld i; ld (i + 1); ld (i + 2); ld (i + 3)]) /\ length h' = total /\
    forall k, flag h' k = flag hs k || newb i 4 w k.
Proof.
  pose proof (inv_wf _ _ HI) as (W1 & _ & _). cbn [fst] in W1. cbn [foldM].
  destruct (lane_of_ok i hs [] ltac:(lia) W1 eq_refl) as (h1 & -> & L1 & F1). cbn [bind app].
  destruct (lane_of_ok (i + 1) h1 [ld i] ltac:(lia) L1) as (h2 & -> & L2 & F2).
  { rewrite F1, nb1_high by lia. apply orb_false_r. }
  cbn [bind app]. destruct (lane_of_ok (i + 2) h2 [ld i; ld (i + 1)] ltac:(lia) L2) as (h3 & -> & L3 & F3).
  { rewrite F2, F1, !nb1_high by lia. rewrite !orb_false_r. reflexivity. }
  cbn [bind app]. destruct (lane_of_ok (i + 3) h3 [ld i; ld (i + 1); ld (i + 2)] ltac:(lia) L3) as (h4 & -> & L4 & F4).
  { rewrite F3, F2, F1, !nb1_high by lia. rewrite !orb_false_r. reflexivity. }
  cbn [bind app]. exists h4. split; [reflexivity|]. split; [assumption|]. intros k.
  rewrite F4, F3, F2, F1, newb_4, !orb_assoc. reflexivity.
Qed.

Definition good (m : mem) : Prop := length (fst m) = total * ss /\ length (snd m) = 64.
Definition sd (n : nat) : bytes := if has w n then slot d n else slice du 0 ss.

Lemma du_len : length du = 64. Proof. pose proof (inv_wf _ _ HI) as (_ & _ & W). exact W. Qed.
Lemma d_len : length d = total * ss. Proof. pose proof (inv_wf _ _ HI) as (_ & W & _). exact W. Qed.
Lemma read_ld n : i <= n < i + 4 -> span_read (d, du) (fst (ld n)) ss = Ok (sd n).
Proof.
  intros Hn. unfold ld, sd. destruct (has w n) eqn:Hh; cbn [fst snd span_read].
  - apply (read_slot ss d _ n d_len). apply (batch_child n Hn Hh).
  - apply read_ok. rewrite du_len. lia.
Qed.
Lemma sd_len n : i <= n < i + 4 -> length (sd n) = ss.
Proof.
  intros Hn. unfold sd. destruct (has w n) eqn:Hh.
  - apply (slot_length ss d _ n d_len). apply (batch_child n Hn Hh).
  - apply slice_length. rewrite du_len. lia.
Qed.
Lemma write_dummy (b : bytes) m off : good m -> length b = ss -> off <= ss ->
  exists m', (do x <- write_at (snd m) off b; Ok (fst m, x)) = Ok m' /\ good m' /\ fst m' = fst m.
Proof.
  intros [G1 G2] Lb Ho. unfold write_at. destruct (Nat.leb_spec (off + length b) (length (snd m))); [|lia].
  cbn [bind]. eexists. split; [reflexivity|]. split; [split; [exact G1|]|reflexivity]. cbn [snd].
  rewrite !app_length, firstn_length, skipn_length. lia.
Qed.
Lemma wr1 n m o : i <= n < i + 4 -> good m -> length o = ss ->
  exists m', span_write m (snd (ld n)) 0 o = Ok m' /\ good m' /\
  forall k, slot (fst m') k = if has w n && (k =? 2 * n + 1) then o else slot (fst m) k.
Proof.
  intros Hn G Lo. unfold ld. destruct (has w n) eqn:Hh; cbn [snd span_write andb].
  - destruct G as [G1 G2]. rewrite Nat.add_0_r.
    destruct (write_slot ss (fst m) total (2 * n + 1) o G1 (proj2 (batch_child n Hn Hh)) Lo) as (d1 & -> & L1 & S1).
    cbn [bind]. eexists. split; [reflexivity|]. split; [split; cbn [fst snd]; congruence|]. exact S1.
  - destruct (write_dummy o m 0 G Lo ltac:(lia)) as (m' & E & G' & F). exists m'. split; [exact E|].
    split; [exact G'|]. intros k. rewrite F. reflexivity.
Qed.
Lemma wr2 n m o : i <= n < i + 4 -> good m -> length o = ss ->
  exists m', (if span_size (snd (ld n)) =? 2 * ss then span_write m (snd (ld n)) ss o
              else if ss <=? 32 then Ok m else UB OutOfBounds) = Ok m' /\ good m' /\
  forall k, slot (fst m') k = if has w n && exf N (2 * n + 2) && (k =? 2 * n + 2) then o else slot (fst m) k.
Proof.
  intros Hn G Lo. unfold ld. destruct (has w n) eqn:Hh; cbn [snd span_size andb].
  - destruct (exf N (2 * n + 2)) eqn:Hx; cbn [andb].
    + rewrite Nat.eqb_refl. unfold span_write. destruct G as [G1 G2].
      replace ((2 * n + 1) * ss + ss) with ((2 * n + 2) * ss) by lia.
      destruct (write_slot ss (fst m) total (2 * n + 2) o G1 (ex_lt_total N HN _ Hx) Lo) as (d1 & -> & L1 & S1).
      cbn [bind]. eexists. split; [reflexivity|]. split; [split; cbn [fst snd]; congruence|]. exact S1.
    + destruct (Nat.eqb_spec ss (2 * ss)); [lia|]. destruct (Nat.leb_spec ss 32); [|lia]. exists m. auto.
  - destruct (Nat.eqb_spec ddst (2 * ss)).
    + unfold span_write. destruct (write_dummy o m ss G Lo ltac:(lia)) as (m' & E & G' & F). exists m'. split; [exact E|].
      split; [exact G'|]. intros k. rewrite F. reflexivity.
    + destruct (Nat.leb_spec ss 32); [|lia]. exists m. auto.
Qed.

Definition inp (n : nat) : bytes := [HASH_PREFIX_1] ++ sd n ++ salt ++ le16 rep ++ le16 n.
Lemma x4_ok : exists m', expand_seed_x4 H salt rep (d, du) [ld i; ld (i + 1); ld (i + 2); ld (i + 3)] i = Ok m' /\ good m' /\
  forall k, slot (fst m') k = if newb i 4 w k then child_seed H salt rep (slot d (parent k)) (parent k) (is_right k) else slot d k.
Proof.
  unfold expand_seed_x4.
  assert (Es : span_size (fst (ld i)) = ss) by (unfold ld; destruct (has w i) eqn:E; [reflexivity|destruct Hd0; [assumption|congruence]]).
  rewrite Es. cbn [mapM]. rewrite !read_ld by lia. cbn [bind].
  set (v := ss * 2 =? 32).
  assert (C : hash_final_x4 (hash_update_x4_u16s (hash_update_x4_u16 (hash_update_x4_1 (hash_update_x4_4
      (hash_init_prefix_x4 (ss * 2) HASH_PREFIX_1) [sd i; sd (i + 1); sd (i + 2); sd (i + 3)]) salt) rep) i) =
      [mkCtx v (inp i) (Some 0); mkCtx v (inp (i + 1)) (Some 0); mkCtx v (inp (i + 2)) (Some 0); mkCtx v (inp (i + 3)) (Some 0)]).
  { unfold inp. unfold hash_final_x4, hash_update_x4_u16s, hash_update_x4_u16, hash_update_x4_1, hash_update_x4_4, hash_init_prefix_x4,
      hash_init_x4, hash_update_x4_1, hash_update_x4_4, hash_update, hash_init.
    cbn [repeat combine map fst snd h_v h_in h_off]. rewrite !app_nil_l, <- !app_assoc. reflexivity. }
  rewrite C. clear C. unfold hash_squeeze_x4. cbn [map hash_squeeze h_v h_in h_off fst snd combine foldM Nat.add].
  set (o1 := fun n => stream H v (inp n) 0 ss). set (o2 := fun n => stream H v (inp n) ss ss).
  change (stream H v (inp i) 0 ss) with (o1 i). change (stream H v (inp (i + 1)) 0 ss) with (o1 (i + 1)).
  change (stream H v (inp (i + 2)) 0 ss) with (o1 (i + 2)). change (stream H v (inp (i + 3)) 0 ss) with (o1 (i + 3)).
  change (stream H v (inp i) ss ss) with (o2 i). change (stream H v (inp (i + 1)) ss ss) with (o2 (i + 1)).
  change (stream H v (inp (i + 2)) ss ss) with (o2 (i + 2)). change (stream H v (inp (i + 3)) ss ss) with (o2 (i + 3)).
  assert (L1 : forall n, length (o1 n) = ss) by (intros; apply stream_length).
  assert (L2 : forall n, length (o2 n) = ss) by (intros; apply stream_length).
  assert (G0 : good (d, du)) by (split; [exact d_len|exact du_len]).
  destruct (wr1 i (d, du) (o1 i) ltac:(lia) G0 (L1 _)) as (m1 & -> & G1 & S1). cbn [bind].
  destruct (wr1 (i + 1) m1 (o1 (i + 1)) ltac:(lia) G1 (L1 _)) as (m2 & -> & G2 & S2). cbn [bind].
  destruct (wr1 (i + 2) m2 (o1 (i + 2)) ltac:(lia) G2 (L1 _)) as (m3 & -> & G3 & S3). cbn [bind].
  destruct (wr1 (i + 3) m3 (o1 (i + 3)) ltac:(lia) G3 (L1 _)) as (m4 & -> & G4 & S4). cbn [bind].
  destruct (wr2 i m4 (o2 i) ltac:(lia) G4 (L2 _)) as (m5 & -> & G5 & S5). cbn [bind].
  destruct (wr2 (i + 1) m5 (o2 (i + 1)) ltac:(lia) G5 (L2 _)) as (m6 & -> & G6 & S6). cbn [bind].
  destruct (wr2 (i + 2) m6 (o2 (i + 2)) ltac:(lia) G6 (L2 _)) as (m7 & -> & G7 & S7). cbn [bind].
  destruct (wr2 (i + 3) m7 (o2 (i + 3)) ltac:(lia) G7 (L2 _)) as (m8 & -> & G8 & S8). cbn [bind].
  exists m8. split; [reflexivity|]. split; [exact G8|]. intros k.
  assert (CS1 : forall n, i <= n < i + 4 -> has w n = true -> o1 n = child_seed H salt rep (slot d n) n false).
  { intros n Hn Hh. rewrite child_stream by (apply (slot_length ss d _ n d_len); apply (batch_child n Hn Hh)).
    unfold o1, inp, sd, v. rewrite Hh. reflexivity. }
  assert (CS2 : forall n, i <= n < i + 4 -> has w n = true -> o2 n = child_seed H salt rep (slot d n) n true).
  { intros n Hn Hh. rewrite child_stream by (apply (slot_length ss d _ n d_len); apply (batch_child n Hn Hh)).
    unfold o2, inp, sd, v. rewrite Hh. reflexivity. }
  rewrite S8, S7, S6, S5, S4, S3, S2, S1, newb_4. cbn [fst].
  clear S1 S2 S3 S4 S5 S6 S7 S8 G1 G2 G3 G4 G5 G6 G7 G8.
  destruct (nb1 i k || nb1 (i + 1) k || nb1 (i + 2) k || nb1 (i + 3) k) eqn:E; cycle 1.
  - rewrite !orb_false_iff in E. destruct E as [[[A B] C] D]. unfold nb1 in A, B, C, D.
    assert (Z : forall n, has w n && ((k =? 2 * n + 1) || (k =? 2 * n + 2) && exf N (2 * n + 2)) = false ->
      has w n && (k =? 2 * n + 1) = false /\ has w n && exf N (2 * n + 2) && (k =? 2 * n + 2) = false).
    { intros n. destruct (has w n), (k =? 2 * n + 1), (k =? 2 * n + 2), (exf N (2 * n + 2)); cbn; auto. }
    apply Z in A, B, C, D. destruct A as [-> ->], B as [-> ->], C as [-> ->], D as [-> ->]. reflexivity.
  - assert (Z : exists n, i <= n < i + 4 /\ has w n = true /\ (k = 2 * n + 1 \/ (k = 2 * n + 2 /\ exf N (2 * n + 2) = true))).
    { rewrite !orb_true_iff in E. unfold nb1 in E. rewrite !andb_true_iff, !orb_true_iff, !andb_true_iff, !Nat.eqb_eq in E.
      destruct E as [[[E|E]|E]|E]; [exists i|exists (i + 1)|exists (i + 2)|exists (i + 3)]; (split; [lia|exact E]). }
    destruct Z as (n & Hn & Hh & [->|[-> Hx]]).
    + rewrite parent_left, right_left, <- CS1 by assumption.
      rewrite !(proj2 (Nat.eqb_neq (2 * n + 1) (2 * _ + 2))) by lia. rewrite !andb_false_r.
      assert (R : n = i \/ n = i + 1 \/ n = i + 2 \/ n = i + 3) by lia.
      destruct R as [->|[->|[->| ->]]]; rewrite Hh; cbn [andb]; rewrite Nat.eqb_refl; cbn [andb];
      repeat match goal with |- context [2 * ?a + 1 =? 2 * ?b + 1] => rewrite (proj2 (Nat.eqb_neq (2 * a + 1) (2 * b + 1))) by lia; rewrite ?andb_false_r end;
      reflexivity.
    + rewrite parent_right, right_right, <- CS2 by assumption.
      rewrite !(proj2 (Nat.eqb_neq (2 * n + 2) (2 * _ + 1))) by lia. rewrite !andb_false_r.
      assert (R : n = i \/ n = i + 1 \/ n = i + 2 \/ n = i + 3) by lia.
      destruct R as [->|[->|[->| ->]]]; rewrite Hh, Hx; cbn [andb]; rewrite Nat.eqb_refl; cbn [andb];
      repeat match goal with |- context [2 * ?a + 2 =? 2 * ?b + 2] => rewrite (proj2 (Nat.eqb_neq (2 * a + 2) (2 * b + 2))) by lia; rewrite ?andb_false_r end;
      reflexivity.
Qed.
Lemma step4_ok : exists w', step4 H salt rep chk e ss dseed ddst w i = Ok w' /\ Step i 4 w w'.
Proof.
  unfold step4. destruct lanes_ok as (h' & -> & Lh & Fh). cbn [bind fst snd].
  destruct x4_ok as (m' & -> & [G1 G2] & Sm). cbn [bind]. eexists. split; [reflexivity|].
  split; [repeat split; assumption|exact Fh|exact Sm].
Qed.
End Batch.
End Loops.
