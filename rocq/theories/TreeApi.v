(** The seed tree constructors, reveal_all_but and get_leaf. *)
From Coq Require Import Arith NArith List Bool Lia.
From Verif Require Import Prelude Instances HashModel TreeModel TreeSpec TreeProofs TreeExpand.
Import ListNotations.

(** ** The three loops *)
Definition starts (i k : nat) : list nat := map (fun j => i + 4 * j) (seq 0 k).
Lemma starts_S i k : starts i (S k) = i :: starts (i + 4) k.
Proof.
  unfold starts. cbn [seq map]. f_equal; [lia|]. rewrite <- seq_shift, map_map. apply map_ext. intros. lia.
Qed.
Section Bound.
Variable N : nat.
Hypothesis HN : 2 <= N.
Notation first := (2 ^ depth N - 1).
Notation total := (2 ^ depth N - 1 + N).
Notation last := (total / 2 - 1).
Lemma pow_mod4 : 2 <= last -> exists c, 2 ^ depth N = 4 * c.
Proof.
  intros Hl. pose proof (last_first N HN) as [A _]. destruct (depth N) as [|[|k]] eqn:E.
  - change (2 ^ 0) with 1 in *. lia.
  - change (2 ^ 1) with 2 in *. lia.
  - exists (2 ^ k). cbn [Nat.pow]. lia.
Qed.
Lemma batch_bound : 2 <= last -> 3 + 4 * (last / 4) <= first.
Proof.
  intros Hl. destruct (pow_mod4 Hl) as [c E]. pose proof (last_first N HN) as [A _]. rewrite E in *.
  pose proof (Nat.div_mod (((4 * c - 1 + N) / 2 - 1)) 4 ltac:(lia)). lia.
Qed.

End Bound.
Section All.
Variables (H : oracle) (salt : bytes) (rep N ss : nat).
Hypothesis HN : 2 <= N.
Hypothesis Hss : 1 <= ss <= 32.
Notation first := (2 ^ depth N - 1).
Notation total := (2 ^ depth N - 1 + N).
Notation last := (total / 2 - 1).
Variable e : list bool.
Hypothesis He : forall n, flag e n = exf N n.
Variable VR : nat -> bytes -> Prop.
Hypothesis HVR : forall n s, n <> 0 -> exf N n = true -> length s = ss -> VR (parent n) s ->
  VR n (child_seed H salt rep s (parent n) (is_right n)).
Variable K0 : nat -> bool.
Hypothesis HK0 : forall n, K0 n = true -> exf N n = true.
Variable chk : bool.
Hypothesis Hchk : chk = false -> K0 0 = true.
Notation Inv := (Inv N ss VR K0).

Lemma scalar_loop k : forall i w, Inv i w -> i + k <= last + 1 ->
  exists w', foldM (step1 H salt rep chk e ss) (seq i k) w = Ok w' /\ Inv (i + k) w'.
Proof.
  induction k as [|k IH]; intros i w HI Hi.
  - exists w. split; [reflexivity|]. rewrite Nat.add_0_r. assumption.
  - cbn [seq foldM]. destruct (step1_ok H salt rep N ss HN Hss e He VR K0 chk Hchk i w HI ltac:(lia)) as (w1 & -> & S1).
    cbn [bind]. pose proof (Inv_step H salt rep N ss HN Hss VR HVR K0 i 1 w w1 ltac:(lia) HI S1) as I1.
    replace (i + 1) with (S i) in I1 by lia. destruct (IH (S i) w1 I1 ltac:(lia)) as (w2 & -> & I2).
    exists w2. split; [reflexivity|]. replace (i + S k) with (S i + k) by lia. assumption.
Qed.

Variables (dseed ddst : nat).
Lemma batch_loop k : forall i w, Inv i w -> 3 <= i -> i + 4 * k <= first ->
  (forall j w, j < k -> Inv (i + 4 * j) w -> dseed = ss \/ has w (i + 4 * j) = true) ->
  exists w', foldM (step4 H salt rep chk e ss dseed ddst) (starts i k) w = Ok w' /\ Inv (i + 4 * k) w'.
Proof.
  induction k as [|k IH]; intros i w HI Hi Hf Hd.
  - exists w. split; [reflexivity|]. replace (i + 4 * 0) with i by lia. assumption.
  - rewrite starts_S. cbn [foldM]. destruct w as [hs [d du]].
    assert (Hd0 : dseed = ss \/ has (hs, (d, du)) i = true).
    { specialize (Hd 0 (hs, (d, du)) ltac:(lia)). replace (i + 4 * 0) with i in Hd by lia. auto. }
    destruct (step4_ok H salt rep N ss HN Hss e He VR K0 chk Hchk dseed ddst i hs d du HI Hi ltac:(lia) Hd0) as (w1 & -> & S1).
    cbn [bind]. pose proof (Inv_step H salt rep N ss HN Hss VR HVR K0 i 4 _ w1 ltac:(lia) HI S1) as I1.
    destruct (IH (i + 4) w1 I1 ltac:(lia) ltac:(lia)) as (w2 & -> & I2).
    { intros j w Hj HIj. specialize (Hd (S j) w ltac:(lia)). replace (i + 4 * S j) with (i + 4 + 4 * j) in Hd by lia. auto. }
    exists w2. split; [reflexivity|]. replace (i + 4 * S k) with (i + 4 + 4 * k) by lia. assumption.
Qed.

(** the batches of the second loop start at 3, 7, ..., 4*(last/4) - 1 *)
Lemma expand_all_eq w : 2 <= last -> expand_all H salt rep chk e ss total dseed ddst w =
  (do w <- foldM (step1 H salt rep chk e ss) (seq 0 3) w;
   do w <- foldM (step4 H salt rep chk e ss dseed ddst) (starts 3 (last / 4)) w;
   foldM (step1 H salt rep chk e ss) (seq (3 + 4 * (last / 4)) (last + 1 - (3 + 4 * (last / 4)))) w).
Proof.
  intros Hl. unfold expand_all. rewrite (last_eq N HN). rewrite Nat.min_r by lia.
  replace ((last / 4 * 4 - (2 + 1) + 3) / 4) with (last / 4); [reflexivity|].
  destruct (last / 4) as [|q] eqn:E; [reflexivity|].
  replace (S q * 4 - (2 + 1) + 3) with (S q * 4) by lia. rewrite Nat.div_mul; lia.
Qed.
Lemma expand_all_ok w : Inv 0 w ->
  (forall j w, 2 <= last -> j < last / 4 -> Inv (3 + 4 * j) w -> dseed = ss \/ has w (3 + 4 * j) = true) ->
  exists w' i, expand_all H salt rep chk e ss total dseed ddst w = Ok w' /\ Inv i w' /\ last < i.
Proof.
  intros HI Hd. destruct (Nat.le_gt_cases 2 last) as [Hl|Hl].
  - rewrite expand_all_eq by assumption.
    destruct (scalar_loop 3 0 w HI ltac:(lia)) as (w1 & -> & I1). cbn [bind].
    destruct (batch_loop (last / 4) 3 w1 I1 ltac:(lia) (batch_bound N HN Hl)) as (w2 & -> & I2).
    { intros j w2 Hj. apply Hd; assumption. }
    cbn [bind]. pose proof (Nat.div_mod last 4 ltac:(lia)) as D. pose proof (Nat.mod_upper_bound last 4 ltac:(lia)).
    destruct (Nat.le_gt_cases (last + 1) (3 + 4 * (last / 4))) as [Hc|Hc].
    + replace (last + 1 - (3 + 4 * (last / 4))) with 0 by lia. exists w2, (3 + 4 * (last / 4)).
      split; [reflexivity|]. split; [assumption|lia].
    + destruct (scalar_loop (last + 1 - (3 + 4 * (last / 4))) _ w2 I2 ltac:(lia)) as (w3 & -> & I3).
      exists w3, (3 + 4 * (last / 4) + (last + 1 - (3 + 4 * (last / 4)))). split; [reflexivity|]. split; [assumption|lia].
  - unfold expand_all. rewrite (last_eq N HN). rewrite Nat.min_l by lia.
    replace ((last / 4 * 4 - (last + 1) + 3) / 4) with 0; cycle 1.
    { rewrite (Nat.div_small last 4) by lia. rewrite Nat.mul_0_l. rewrite Nat.sub_0_l. reflexivity. }
    destruct (scalar_loop (last + 1) 0 w HI ltac:(lia)) as (w1 & -> & I1). cbn [bind seq map foldM].
    replace (last + 1 - (last + 1 + 4 * 0)) with 0 by lia. exists w1, (0 + (last + 1)). split; [reflexivity|]. split; [assumption|lia].
Qed.
End All.

(** ** Size condition of the first constructor *)
Definition wide (N : nat) : Prop := 2 ^ depth N - 16 < N.
Lemma wide_starts N : 2 <= N -> wide N ->
  forall j, let last := (2 ^ depth N - 1 + N) / 2 - 1 in 2 <= last -> j < last / 4 -> exf N (3 + 4 * j) = true.
Proof.
  intros HN Hw j last Hl Hj. set (L := depth N) in *.
  pose proof (last_first N HN) as [A B]. fold L last in A.
  pose proof (Nat.div_mod last 4 ltac:(lia)) as D.
  assert (Hi : 3 + 4 * j <= last) by lia.
  pose proof (depth_lt N HN (3 + 4 * j) ltac:(fold L; lia)) as Hd. fold L in Hd.
  unfold exf. fold L. apply Nat.ltb_lt. set (dd := Nat.log2 (3 + 4 * j + 1)) in *.
  pose proof (Nat.log2_spec (3 + 4 * j + 1) ltac:(lia)) as [S1 S2]. fold dd in S1, S2.
  destruct (Nat.eq_dec (L - dd) 1) as [E|E].
  - rewrite E. cbn [Nat.pow]. pose proof (Nat.div_mod (2 ^ L - 1 + N) 2 ltac:(lia)) as D2.
    unfold last in Hi. pose proof (pow_pos L). lia.
  - assert (Ld : exists k, L - dd = S (S k)) by (exists (L - dd - 2); lia). destruct Ld as [k Ek].
    assert (Q : 3 + 4 * j + 1 <= 2 ^ S dd - 4).
    { assert (Hdd : 2 <= dd).
      { unfold dd. pose proof (Nat.log2_le_mono 4 (3 + 4 * j + 1) ltac:(lia)) as M. change (Nat.log2 4) with 2 in M. lia. }
      destruct dd as [|dd']; [lia|]. cbn [Nat.pow] in *. lia. }
    assert (P : 2 ^ S dd * 2 ^ (L - dd) = 2 * 2 ^ L).
    { rewrite <- Nat.pow_add_r. replace (S dd + (L - dd)) with (S L) by lia. reflexivity. }
    assert (R : 4 <= 2 ^ (L - dd)). { rewrite Ek. cbn [Nat.pow]. pose proof (pow_pos k). lia. }
    unfold wide in Hw. fold L in Hw.
    assert (T : (3 + 4 * j + 1) * 2 ^ (L - dd) <= 2 * 2 ^ L - 16) by nia.
    pose proof (N_le N HN). fold L in H. lia.
Qed.

(** computations whose only failure is an access outside a buffer *)
Definition onlyub {A} (x : res A) : Prop := match x with Ok _ => True | UB OutOfBounds => True | _ => False end.
Lemma onlyub_bind {A B} (x : res A) (f : A -> res B) : onlyub x -> (forall a, onlyub (f a)) -> onlyub (bind x f).
Proof. destruct x as [a| |[|]|]; cbn; auto. Qed.
Lemma onlyub_foldM {A S} (f : S -> A -> res S) l : (forall s a, onlyub (f s a)) -> forall s, onlyub (foldM f l s).
Proof. intros Hf. induction l as [|a l IH]; intros s; cbn; [exact Logic.I|]. apply onlyub_bind; auto. Qed.
Lemma onlyub_mapM {A B} (f : A -> res B) l : (forall a, onlyub (f a)) -> onlyub (mapM f l).
Proof. intros Hf. induction l as [|a l IH]; cbn; [exact Logic.I|]. repeat (apply onlyub_bind; auto; intros). exact Logic.I. Qed.
Lemma onlyub_set e i : onlyub (set e i true).
Proof. unfold set. destruct (i <? length e); exact Logic.I. Qed.
Lemma onlyub_span_read m s n : onlyub (span_read m s n).
Proof. destruct s; cbn [span_read]; unfold read; destruct (_ <=? _); exact Logic.I. Qed.
Lemma onlyub_span_write m s o b : onlyub (span_write m s o b).
Proof. destruct s; cbn [span_write]; unfold write_at; destruct (_ <=? _); exact Logic.I. Qed.
Lemma bind_ub {A B} (x : res A) (f : A -> res B) : onlyub x -> (forall a, x = Ok a -> f a = UB OutOfBounds) -> bind x f = UB OutOfBounds.
Proof. destruct x as [a| |[|]|]; cbn; auto; contradiction. Qed.

(** ** First constructor *)
Lemma node_seed_fuel_enough H salt rep root : forall f n, n <= f ->
  node_seed_fuel H salt rep root f n = node_seed H salt rep root n.
Proof.
  unfold node_seed. assert (G : forall n f g, n <= f -> n <= g -> node_seed_fuel H salt rep root f n = node_seed_fuel H salt rep root g n).
  { induction n as [n IH] using lt_wf_ind. intros [|f] [|g] Hf Hg; try (replace n with 0 by lia; reflexivity).
    cbn [node_seed_fuel]. destruct n as [|n]; [reflexivity|]. pose proof (parent_lt (S n) ltac:(lia)).
    rewrite (IH (parent (S n)) ltac:(lia) f g) by lia. reflexivity. }
  intros f n Hn. apply G; lia.
Qed.
Lemma node_seed_child H salt rep root n : n <> 0 ->
  node_seed H salt rep root n = child_seed H salt rep (node_seed H salt rep root (parent n)) (parent n) (is_right n).
Proof.
  intros Hn. destruct n as [|n]; [congruence|]. unfold node_seed at 1. cbn [node_seed_fuel].
  rewrite node_seed_fuel_enough; [reflexivity|]. pose proof (parent_lt (S n) Hn). lia.
Qed.
Lemma node_seed_length H salt rep root n : length (node_seed H salt rep root n) = length root.
Proof.
  induction n as [n IH] using lt_wf_ind. destruct (Nat.eq_dec n 0) as [->|Hn]; [reflexivity|].
  rewrite node_seed_child by assumption. unfold child_seed. rewrite stream_length. apply IH. apply parent_lt. assumption.
Qed.

Definition leaves_ok (N : nat) : Prop := 2 <= N /\ (N.of_nat N <= 2 ^ 29)%N.
Lemma total_ok N : leaves_ok N -> num_total_nodes N = Ok (2 ^ depth N - 1 + N).
Proof.
  intros [HN HM]. unfold num_total_nodes. rewrite ceil_log2_depth by lia.
  assert (D : depth N <= 29).
  { unfold depth. rewrite log2_up_N. pose proof (N.log2_up_le_mono _ _ HM) as M. rewrite N.log2_up_pow2 in M; lia. }
  destruct (Nat.leb_spec 31 (1 + depth N)); [lia|]. f_equal. pose proof (N_le N HN). pose proof (pow_pos (depth N)).
  replace (1 + depth N - 1) with (depth N) by lia. replace (1 + depth N) with (S (depth N)) by lia. cbn [Nat.pow]. lia.
Qed.

(** a tree state with the flags and contents the constructors leave *)
Record tree_ok (N ss : nat) (t : tree) : Prop := {
  tk_total : t_total t = 2 ^ depth N - 1 + N;
  tk_leaves : t_leaves t = N;
  tk_ss : t_seed_size t = ss;
  tk_ex : forall n, flag (t_exists t) n = exf N n;
  tk_len : length (t_data t) = (2 ^ depth N - 1 + N) * ss }.

Lemma inv0 H salt rep N seed e : 2 <= N -> 1 <= length seed <= 32 -> (forall n, flag e n = exf N n) ->
  exists hs d, set (repeat false (2 ^ depth N - 1 + N)) 0 true = Ok hs /\
    write_at (zeros ((2 ^ depth N - 1 + N) * length seed)) 0 seed = Ok d /\
    Inv N (length seed) (fun n s => s = node_seed H salt rep seed n) (fun n => n =? 0) 0 (hs, (d, zeros 64)).
Proof.
  intros HN Hss He. set (total := 2 ^ depth N - 1 + N).
  destruct (set_ok (repeat false total) 0) as (hs & E1 & L1 & F1); [rewrite repeat_length; unfold total; lia|].
  destruct (write_slot (length seed) (zeros (total * length seed)) total 0 seed) as (d & E2 & L2 & S2).
  { apply repeat_length. } { unfold total; lia. } { reflexivity. }
  exists hs, d. split; [exact E1|]. split; [exact E2|]. rewrite repeat_length in L1. unfold zeros in L2 at 1. rewrite repeat_length in L2.
  split.
  - split; [exact L1|]. split; [exact L2|reflexivity].
  - intros n Hn. unfold has in Hn. cbn [fst] in Hn. rewrite F1, flag_repeat, orb_false_r in Hn. apply Nat.eqb_eq in Hn. subst n.
    split; [apply ex_0; assumption|]. unfold dat. cbn [fst snd]. rewrite S2. reflexivity.
  - intros n. unfold has. cbn [fst]. rewrite F1, flag_repeat, orb_false_r. split; [auto|]. intros [A|(_ & A & _)]; [assumption|lia].
Qed.

Lemma final_has N ss VR K0 i w : 2 <= N -> (2 ^ depth N - 1 + N) / 2 - 1 < i -> Inv N ss VR K0 i w ->
  forall n, has w n = true <-> K0 n = true \/ (n <> 0 /\ exf N n = true /\ has w (parent n) = true).
Proof.
  intros HN Hi HI n. rewrite (inv_has _ _ _ _ _ _ HI n). split.
  - intros [A|(A & B & C & D)]; auto.
  - intros [A|(A & B & C)]; auto. right. repeat split; auto.
    pose proof (ex_lt_total N HN n B). pose proof (parent_cases n A) as P.
    pose proof (Nat.div_mod (2 ^ depth N - 1 + N) 2 ltac:(lia)) as D2.
    pose proof (Nat.mod_upper_bound (2 ^ depth N - 1 + N) 2 ltac:(lia)). lia.
Qed.

Section Ctor1.
Variables (H : oracle) (salt : bytes) (rep N : nat) (seed : bytes).
Hypothesis HN : leaves_ok N.
Hypothesis Hss : 1 <= length seed <= 32.
Notation V := (node_seed H salt rep seed).
Notation K0 := (fun n => n =? 0).
Notation VR := (fun n s => s = V n).
Notation last := ((2 ^ depth N - 1 + N) / 2 - 1).

Lemma VR_closed : forall n s, n <> 0 -> exf N n = true -> length s = length seed -> s = V (parent n) ->
  child_seed H salt rep s (parent n) (is_right n) = V n.
Proof. intros n s Hn _ _ ->. symmetry. apply node_seed_child. assumption. Qed.

Lemma seed_tree_ok : wide N ->
  exists t, seed_tree H salt rep seed N = Ok t /\ tree_ok N (length seed) t /\
    forall n, exf N n = true -> flag (t_has t) n = true /\ slot (length seed) (t_data t) n = V n.
Proof.
  intros Hw. destruct HN as [H2 _]. unfold seed_tree. rewrite total_ok by assumption. cbn [bind].
  destruct (build_exists_ok N H2) as (e & -> & Le & He). cbn [bind].
  destruct (inv0 H salt rep N seed e H2 Hss He) as (hs & d & -> & -> & I0). cbn [bind].
  destruct (Nat.leb_spec (2 ^ depth N - 1 + N) 1); [lia|].
  assert (HK0 : forall n, (n =? 0) = true -> exf N n = true) by (intros n E; apply Nat.eqb_eq in E; subst; apply ex_0; assumption).
  destruct (expand_all_ok H salt rep N (length seed) H2 Hss e He VR VR_closed K0 false (fun _ => eq_refl) 64 64 (hs, (d, zeros 64)) I0)
    as (w & i & -> & I1 & Hi).
  { intros j w Hl Hj HIj. right.
    apply (has_processed N (length seed) H2 Hss VR K0 false (fun _ => eq_refl) _ w HIj eq_refl).
    - apply wide_starts; assumption.
    - right. apply parent_lt. lia. }
  cbn [bind]. eexists. split; [reflexivity|]. pose proof (inv_wf _ _ _ _ _ _ I1) as (W1 & W2 & W3).
  split; [split; try reflexivity; assumption|]. cbn [t_has t_data]. intros n Hx.
  assert (Hh : has w n = true).
  { induction n as [n IH] using lt_wf_ind. apply (final_has N _ _ _ i w H2 Hi I1).
    destruct (Nat.eq_dec n 0) as [->|Hn]; [left; reflexivity|right]. repeat split; auto.
    apply IH; [apply parent_lt; assumption|apply ex_parent; assumption]. }
  split; [exact Hh|]. apply (inv_val _ _ _ _ _ _ I1 n Hh).
Qed.

(** outside that range the constructor overruns a 32-byte buffer *)
Lemma step4_overrun e w i : flag e i = false ->
  step4 H salt rep false e (length seed) 64 64 w i = UB OutOfBounds.
Proof.
  intros He. unfold step4. destruct w as [hs m].
  assert (A : forall l hl, onlyub (foldM (lane_of false e (length seed) 64 64) l hl)).
  { intros l hl. apply onlyub_foldM. intros [h ls] n. unfold lane_of.
    destruct (active false e h n); [|exact Logic.I].
    apply onlyub_bind; [apply onlyub_set|]. intros h'. destruct (flag e (2 * n + 2)); [|exact Logic.I].
    apply onlyub_bind; [apply onlyub_set|]. intros; exact Logic.I. }
  assert (B : forall l h ls hl, foldM (lane_of false e (length seed) 64 64) l (h, (SDummy 64, SDummy 64) :: ls) = Ok hl ->
      exists ls', snd hl = (SDummy 64, SDummy 64) :: ls').
  { induction l as [|n l IH]; intros h ls hl E.
    - inversion E; subst. exists ls. reflexivity.
    - cbn [foldM] in E. apply bind_ok in E. destruct E as ([h' ls'] & E1 & E2).
      unfold lane_of in E1. destruct (active false e h n).
      + apply bind_ok in E1. destruct E1 as (h1 & _ & E1). destruct (flag e (2 * n + 2)).
        * apply bind_ok in E1. destruct E1 as (h2 & _ & E1). inversion E1; subst. cbn [app] in E2. eapply IH. exact E2.
        * inversion E1; subst. cbn [app] in E2. eapply IH. exact E2.
      + inversion E1; subst. cbn [app] in E2. eapply IH. exact E2. }
  destruct (foldM (lane_of false e (length seed) 64 64) [i; i + 1; i + 2; i + 3] (hs, [])) as [hl| | |] eqn:E.
  2-4: specialize (A [i; i + 1; i + 2; i + 3] (hs, [])); rewrite E in A; try contradiction; destruct r; try contradiction; reflexivity.
  cbn [bind]. cbn [foldM] in E. unfold lane_of at 1 in E. unfold active in E. rewrite He in E. cbn [andb bind app] in E.
  apply (B [i + 1; i + 2; i + 3] hs []) in E. destruct E as [ls' E]. rewrite E. cbn [snd].
  enough (X : expand_seed_x4 H salt rep m ((SDummy 64, SDummy 64) :: ls') i = UB OutOfBounds) by (rewrite X; reflexivity).
  unfold expand_seed_x4. cbn [fst span_size].
  apply bind_ub; [apply onlyub_mapM; intros; apply onlyub_span_read|]. intros seeds Es.
  apply mapM_length in Es. destruct seeds as [|s0 seeds]; [discriminate Es|].
  apply bind_ub; [apply onlyub_foldM; intros; apply onlyub_span_write|]. intros m' _.
  reflexivity.
Qed.
Lemma batch_overrun e (VR : nat -> bytes -> Prop) K0 : (forall n, flag e n = exf N n) ->
  (forall n s, n <> 0 -> exf N n = true -> length s = length seed -> VR (parent n) s ->
     VR n (child_seed H salt rep s (parent n) (is_right n))) -> K0 0 = true ->
  forall k i w, Inv N (length seed) VR K0 i w -> 3 <= i -> i + 4 * k <= 2 ^ depth N - 1 ->
  (exists j, j < k /\ exf N (i + 4 * j) = false) ->
  foldM (step4 H salt rep false e (length seed) 64 64) (starts i k) w = UB OutOfBounds.
Proof.
  intros He HVR HK. destruct HN as [H2 _]. induction k as [|k IH]; intros i w HI Hi Hf (j & Hj & Ej); [lia|].
  rewrite starts_S. cbn [foldM]. destruct (exf N i) eqn:Ei.
  - destruct w as [hs [d du]].
    assert (Hh : has (hs, (d, du)) i = true).
    { apply (has_processed N (length seed) H2 Hss VR K0 false (fun _ => HK) i _ HI eq_refl i Ei). right. apply parent_lt. lia. }
    destruct (step4_ok H salt rep N (length seed) H2 Hss e He VR K0 false (fun _ => HK) 64 64 i hs d du HI Hi ltac:(lia) (or_intror Hh)) as (w1 & -> & S1).
    cbn [bind]. pose proof (Inv_step H salt rep N (length seed) H2 Hss VR HVR K0 i 4 _ w1 ltac:(lia) HI S1) as I1.
    apply (IH (i + 4) w1 I1 ltac:(lia) ltac:(lia)). destruct j as [|j]; [rewrite Nat.mul_0_r, Nat.add_0_r in Ej; congruence|].
    exists j. split; [lia|]. replace (i + 4 + 4 * j) with (i + 4 * S j) by lia. assumption.
  - rewrite step4_overrun by (rewrite He; exact Ei). reflexivity.
Qed.
Lemma seed_tree_overrun : ~ wide N -> seed_tree H salt rep seed N = UB OutOfBounds.
Proof.
  intros Hw. pose proof HN as [H2 _]. unfold seed_tree. rewrite total_ok by assumption. cbn [bind].
  destruct (build_exists_ok N H2) as (e & -> & Le & He). cbn [bind].
  destruct (inv0 H salt rep N seed e H2 Hss He) as (hs & d & -> & -> & I0). cbn [bind].
  destruct (Nat.leb_spec (2 ^ depth N - 1 + N) 1); [lia|].
  assert (HK0 : forall n, (n =? 0) = true -> exf N n = true) by (intros n E; apply Nat.eqb_eq in E; subst; apply ex_0; assumption).
  (* the tree has depth at least 6 *)
  unfold wide in Hw. pose proof (depth_spec N H2) as [[D1 D2] D3].
  assert (D6 : 6 <= depth N).
  { apply Nat.nlt_ge. intros C. assert (depth N = 1 \/ depth N = 2 \/ depth N = 3 \/ depth N = 4 \/ depth N = 5) as Z by lia.
    destruct Z as [Z|[Z|[Z|[Z|Z]]]]; rewrite Z in *; cbn in D1, Hw; lia. }
  assert (P : exists k, depth N = S (S (S k)) /\ 8 <= 2 ^ k).
  { exists (depth N - 3). split; [lia|]. apply (Nat.pow_le_mono_r 2 3 (depth N - 3)); lia. }
  destruct P as (k & Ek & Pk). assert (E2 : 2 ^ depth N = 8 * 2 ^ k) by (rewrite Ek; cbn [Nat.pow]; lia).
  assert (E1 : 2 ^ (depth N - 1) = 4 * 2 ^ k) by (replace (depth N - 1) with (S (S k)) by lia; cbn [Nat.pow]; lia).
  set (last := (2 ^ depth N - 1 + N) / 2 - 1).
  assert (Hl : 6 * 2 ^ k - 1 <= last).
  { unfold last. assert (6 * 2 ^ k <= (2 ^ depth N - 1 + N) / 2) by (apply Nat.div_le_lower_bound; lia). lia. }
  pose proof (Nat.div_mod last 4 ltac:(lia)) as DM. pose proof (Nat.mod_upper_bound last 4 ltac:(lia)).
  rewrite (expand_all_eq H salt rep N (length seed) H2 Hss e false 64 64) by (fold last; lia). fold last.
  destruct (scalar_loop H salt rep N (length seed) H2 Hss e He VR VR_closed K0 false (fun _ => eq_refl) 3 0 (hs, (d, zeros 64)) I0) as (w1 & -> & I1);
    [fold last; lia|]. cbn [bind].
  rewrite (batch_overrun e VR K0 He VR_closed eq_refl (last / 4) 3 w1 I1); [reflexivity|lia| |].
  { apply (batch_bound N H2). fold last. lia. }
  (* the last batch above the lowest inner level starts at node 2^(depth-1) - 5, which does not exist *)
  exists (2 ^ k - 2). split; [lia|].
  assert (Ei : 3 + 4 * (2 ^ k - 2) + 1 = 4 * 2 ^ k - 4) by lia.
  unfold exf. rewrite Ei. replace (Nat.log2 (4 * 2 ^ k - 4)) with (S k).
  - replace (depth N - S k) with 2 by lia. apply Nat.ltb_ge. cbn [Nat.pow]. lia.
  - symmetry. apply Nat.log2_unique; [lia|]. cbn [Nat.pow]. lia.
Qed.
End Ctor1.
