(** The functions on lanes of all four states, and the permutations *)
From Coq Require Import Arith NArith List Bool Lia.
From Verif Require Import Prelude SpongeModel SpongeFacts KeccakSpec KeccakModel KeccakFacts KeccakBytes SnpMem SnpLayout SnpSponge SnpSim SnpSim4 Opt64Model Opt64Facts Opt64More Opt64MoreFacts X86Model Simd256Model Simd256Round Simd256Facts StateSpec PutFacts FourSpec FourModel FourLay.
Import ListNotations.

Lemma each_nth f sts : length sts = 4 -> each f sts = map (fun i => f i (nth i sts [])) (seq 0 4).
Proof. intros L. destruct (four_cases sts L) as (a & b & c & d & ->). reflexivity. Qed.
Lemma nth_map4 (F : nat -> bytes) i : i < 4 -> nth i (map F (seq 0 4)) [] = F i.
Proof. intros H. do 4 (destruct i as [|i]; [reflexivity|]). lia. Qed.
(** *** the shape of the functions *)
Lemma fold_inv {U : Type} (one : U -> nat -> res U) (Inv : nat -> U -> Prop) k : (forall s a, Inv a s -> a < k -> exists s', one s a = Ok s' /\ Inv (a + 1) s') ->
  forall n s a, Inv a s -> a + n <= k -> exists s', foldM one (seq a n) s = Ok s' /\ Inv (a + n) s'.
Proof.
  intros H1. induction n as [|n IH]; intros s a H Hk; cbn [seq foldM]; [exists s; rewrite Nat.add_0_r; split; [reflexivity|exact H]|].
  destruct (H1 s a H ltac:(lia)) as (s1 & E1 & I1). rewrite E1. cbn [bind]. replace (a + S n) with (S a + n) by lia. apply IH; [replace (S a) with (a + 1) by lia; exact I1|lia].
Qed.
Lemma lanes_all_inv {U : Type} (one four : U -> nat -> res U) (Inv : nat -> U -> Prop) k s :
  (forall s a, Inv a s -> a < k -> exists s', one s a = Ok s' /\ Inv (a + 1) s') -> (forall s a, Inv a s -> a + 4 <= k -> exists s', four s a = Ok s' /\ Inv (a + 4) s') ->
  Inv 0 s -> exists s', lanes_all one four s k = Ok s' /\ Inv k s'.
Proof.
  intros H1 H4 H0. unfold lanes_all. pose proof (fold_inv one Inv k H1) as F. destruct (Nat.leb_spec 16 k) as [A|A].
  - destruct (H4 _ _ H0 ltac:(lia)) as (s1 & E1 & I1). rewrite E1. cbn [bind]. destruct (H4 _ _ I1 ltac:(lia)) as (s2 & E2 & I2). change (0 + 4) with 4 in E2. rewrite E2. cbn [bind].
    destruct (H4 _ _ I2 ltac:(lia)) as (s3 & E3 & I3). change (0 + 4 + 4) with 8 in E3. rewrite E3. cbn [bind]. destruct (H4 _ _ I3 ltac:(lia)) as (s5 & E5 & I5). change (0 + 4 + 4 + 4) with 12 in E5. rewrite E5. cbn [bind]. change (0 + 4 + 4 + 4 + 4) with 16 in I5.
    destruct (Nat.leb_spec 20 k) as [B|B].
    + destruct (H4 _ _ I5 ltac:(lia)) as (s6 & E6 & I6). rewrite E6. cbn [bind]. destruct (F (k - 20) s6 20 I6 ltac:(lia)) as (s' & E & I'). exists s'. split; [exact E|]. replace k with (20 + (k - 20)) by lia. exact I'.
    + destruct (F (k - 16) s5 16 I5 ltac:(lia)) as (s' & E & I'). exists s'. split; [exact E|]. replace k with (16 + (k - 16)) by lia. exact I'.
  - destruct (F k s 0 H0 ltac:(lia)) as (s' & E & I'). exists s'. split; [exact E|exact I'].
Qed.

(** *** storing one lane of each state *)
Lemma slice_put8 (st W : bytes) a j : is_bytes st -> 8 * a + 8 <= length st -> 8 * j + 8 <= length st -> forall v, W = le_bytes 8 v -> slice (put st (8 * a) W) (8 * j) 8 = if j =? a then W else slice st (8 * j) 8.
Proof. intros B Ha Hj v ->. destruct (store64_spec st a v B Ha) as (m' & E & _ & _ & X). rewrite store64_put in E by exact Ha. injection E as <-. apply X. exact Hj. Qed.
Lemma lay_store4 m sts a v : lay4 m sts -> a < 25 -> exists m', STORE256 m a v = Ok m' /\ lay4 m' (map (fun i => put (nth i sts []) (8 * a) (le_bytes 8 (p_of i v))) (seq 0 4)).
Proof.
  intros (Lm & Bm & Ls & Bs & H) Ha. change (8 * 100) with 800 in Lm. destruct (STORE256_spec m a v Bm Lm Ha) as (m' & E & L' & B' & S'). exists m'. split; [exact E|].
  assert (LW : forall i, length (le_bytes 8 (p_of i v)) = 8) by (intros; apply le_bytes_length).
  split; [exact L'|]. split; [exact B'|]. split; [reflexivity|]. split.
  - intros i Hi. rewrite nth_map4 by exact Hi. destruct (Bs i Hi) as [L1 B1]. split; [rewrite put_length by (rewrite LW; lia); exact L1|apply put_bytes; [exact B1|apply le_bytes_is_bytes]].
  - intros i j Hi Hj. rewrite nth_map4 by exact Hi. destruct (Bs i Hi) as [L1 B1]. rewrite S' by assumption. rewrite (slice_put8 _ _ a j B1 ltac:(lia) ltac:(lia) _ eq_refl). destruct (j =? a); [reflexivity|]. apply H; assumption.
Qed.
Definition vrow (d : bytes) (k : nat) : V256 := V4 (lane d k) (lane d (k + 1)) (lane d (k + 2)) (lane d (k + 3)).
Lemma LOAD256u_ok d k : 8 * k + 32 <= length d -> LOAD256u d k = Ok (vrow d k).
Proof. intros H. unfold LOAD256u. rewrite !load64_ok by lia. reflexivity. Qed.
Definition vcol (d : bytes) (off a : nat) : V256 := V4 (lane d a) (lane d (off + a)) (lane d (off * 2 + a)) (lane d (off * 3 + a)).
Lemma LOAD4_ok d off a : 8 * (off * 3 + a) + 8 <= length d -> LOAD4_64 d off a = Ok (vcol d off a).
Proof. intros H. unfold LOAD4_64. rewrite !load64_ok by lia. reflexivity. Qed.
Lemma p_vcol d off a i : i < 4 -> p_of i (vcol d off a) = lane d (off * i + a).
Proof. intros Hi. rewrite p_of_eq by exact Hi. unfold vcol. do 4 (destruct i as [|i]; [cbn [nth w0 w1 w2 w3]; f_equal; lia|]). lia. Qed.
Lemma intleave_ok d off a : INTLEAVE (vrow d a) (vrow d (off + a)) (vrow d (off * 2 + a)) (vrow d (off * 3 + a)) = (vcol d off (a + 0), vcol d off (a + 1), vcol d off (a + 2), vcol d off (a + 3)).
Proof. unfold vcol. rewrite Nat.add_0_r, !Nat.add_assoc. reflexivity. Qed.

Section All.
Variable P : place.
Hypothesis HP : aligned P.
Lemma st_al {A} (x : res A) : states_aligned P x = x.
Proof. unfold states_aligned, aligned32. destruct HP as (-> & _). reflexivity. Qed.
Section Write.
Variables (d : bytes) (k off : nat) (sts : list bytes).
Hypothesis Bd : is_bytes d.
Hypothesis Hk : k <= 25.
Hypothesis Hd : 8 * off * 3 + 8 * k <= length d.
Hypothesis L4 : length sts = 4.
Hypothesis Bs : forall i, i < 4 -> length (nth i sts []) = 200 /\ is_bytes (nth i sts []).
Lemma row_word i a : i < 4 -> a < k -> le_bytes 8 (lane d (off * i + a)) = slice d (8 * off * i + 8 * a) 8.
Proof. intros Hi Ha. rewrite lane_le_bytes; [f_equal; lia|exact Bd|]. assert (off * i <= off * 3) by (apply Nat.mul_le_mono_l; lia). lia. Qed.
Lemma row_more i a : slice d (8 * off * i) (8 * (a + 1)) = slice d (8 * off * i) (8 * a) ++ slice d (8 * off * i + 8 * a) 8.
Proof. rewrite slice_app. f_equal. lia. Qed.
Lemma row_len i a : i < 4 -> a <= k -> length (slice d (8 * off * i) (8 * a)) = 8 * a.
Proof. intros Hi Ha. assert (8 * off * i <= 8 * off * 3) by (apply Nat.mul_le_mono_l; lia). apply slice_length. lia. Qed.
Definition added (a i : nat) : bytes := put (nth i sts []) 0 (xorl (slice (nth i sts []) 0 (8 * a)) (slice d (8 * off * i) (8 * a))).
Definition over (a i : nat) : bytes := put (nth i sts []) 0 (slice d (8 * off * i) (8 * a)).
Lemma map4_ext (F G : nat -> bytes) : (forall i, i < 4 -> F i = G i) -> map F (seq 0 4) = map G (seq 0 4).
Proof. intros H. apply map_ext_in. intros i Hi. apply in_seq in Hi. apply H. lia. Qed.
Lemma xor_lanes_ok m sts' a v : lay4 m sts' -> a < 25 -> exists m', xor_lanes P m a v = Ok m' /\ lay4 m' (map (fun i => put (nth i sts' []) (8 * a) (le_bytes 8 (N.lxor (lane (nth i sts' []) a) (p_of i v)))) (seq 0 4)).
Proof.
  intros H Ha. pose proof H as (Lm & Bm & _ & _ & HS). unfold xor_lanes. rewrite st_al. change (8 * 100) with 800 in Lm. rewrite LOAD256_ok by assumption. cbn [bind]. destruct (lay_store4 m sts' a (XOR256 (vload m a) v) H Ha) as (m' & E & H'). exists m'. split; [exact E|].
  match type of H' with lay4 _ ?x => match goal with |- lay4 _ ?y => replace y with x; [exact H'|] end end. apply map4_ext. intros i Hi. f_equal. f_equal.
  transitivity (N.lxor (p_of i (vload m a)) (p_of i v)); [do 4 (destruct i as [|i]; [reflexivity|]); lia|]. rewrite p_vload by exact Hi. f_equal. unfold lane. rewrite HS by assumption. reflexivity.
Qed.
Lemma Xor_step m a : lay4 m (map (added a) (seq 0 4)) -> a < k -> exists m', Xor_In P d off m a = Ok m' /\ lay4 m' (map (added (a + 1)) (seq 0 4)).
Proof.
  intros H Ha. unfold Xor_In. rewrite LOAD4_ok by lia. cbn [bind]. destruct (xor_lanes_ok m _ a (vcol d off a) H ltac:(lia)) as (m' & E & H'). exists m'. split; [exact E|].
  match type of H' with lay4 _ ?x => match goal with |- lay4 _ ?y => replace y with x; [exact H'|] end end. apply map4_ext. intros i Hi. rewrite nth_map4 by exact Hi. rewrite p_vcol by exact Hi. destruct (Bs i Hi) as [L1 B1]. unfold added. set (st := nth i sts []) in *.
  set (Q := xorl (slice st 0 (8 * a)) (slice d (8 * off * i) (8 * a))). assert (LQ : length Q = 8 * a) by (unfold Q; rewrite xorl_length, slice_length, row_len by lia; lia).
  rewrite le_bytes_lxor, row_word by assumption. assert (BP : is_bytes (put st 0 Q)) by (destruct H as (_ & _ & _ & Bn & _); destruct (Bn i Hi) as [_ X]; rewrite nth_map4 in X by exact Hi; exact X).
  rewrite lane_le_bytes; [|exact BP|rewrite put_length by lia; lia].
  assert (ES : slice (put st 0 Q) (8 * a) 8 = slice st (8 * a) 8) by (pose proof (slice_put st Q 0 0 8 ltac:(lia) ltac:(lia) ltac:(lia)) as X; rewrite LQ in X; exact X). rewrite ES.
  replace (xorl (slice st 0 (8 * (a + 1))) (slice d (8 * off * i) (8 * (a + 1)))) with (Q ++ xorl (slice st (8 * a) 8) (slice d (8 * off * i + 8 * a) 8)).
  - assert (LR : length (xorl (slice st (8 * a) 8) (slice d (8 * off * i + 8 * a) 8)) = 8). { rewrite xorl_length, !slice_length; [reflexivity|assert (8 * off * i <= 8 * off * 3) by (apply Nat.mul_le_mono_l; lia); lia|lia]. }
    rewrite put_app by (rewrite LR; lia). rewrite LQ. reflexivity.
  - rewrite row_more. replace (slice st 0 (8 * (a + 1))) with (slice st 0 (8 * a) ++ slice st (0 + 8 * a) 8) by (rewrite slice_app; f_equal; lia). rewrite xorl_app by (rewrite row_len, slice_length by lia; reflexivity). reflexivity.
Qed.
Lemma Over_step m a : lay4 m (map (over a) (seq 0 4)) -> a < k -> exists m', OverWr P d off m a = Ok m' /\ lay4 m' (map (over (a + 1)) (seq 0 4)).
Proof.
  intros H Ha. unfold OverWr. rewrite LOAD4_ok by lia. cbn [bind]. rewrite st_al. destruct (lay_store4 m _ a (vcol d off a) H ltac:(lia)) as (m' & E & H'). exists m'. split; [exact E|].
  match type of H' with lay4 _ ?x => match goal with |- lay4 _ ?y => replace y with x; [exact H'|] end end. apply map4_ext. intros i Hi. rewrite nth_map4 by exact Hi. rewrite p_vcol by exact Hi. destruct (Bs i Hi) as [L1 B1]. unfold over. set (st := nth i sts []) in *.
  rewrite row_word by assumption. rewrite row_more. assert (8 * off * i <= 8 * off * 3) by (apply Nat.mul_le_mono_l; lia). rewrite put_app by (rewrite row_len, slice_length by lia; lia). rewrite row_len by lia. reflexivity.
Qed.
Lemma Xor4_eq m a : a + 4 <= k -> Xor_In4 P d off m a = (do m <- Xor_In P d off m a; do m <- Xor_In P d off m (a + 1); do m <- Xor_In P d off m (a + 1 + 1); Xor_In P d off m (a + 1 + 1 + 1)).
Proof.
  intros H. unfold Xor_In4. rewrite !LOAD256u_ok by lia. cbn [bind]. rewrite intleave_ok. unfold Xor_In. rewrite !LOAD4_ok by lia. cbn [bind]. rewrite Nat.add_0_r. apply bind_same. intros m1. apply bind_same. intros m2. replace (a + 1 + 1) with (a + 2) by lia. replace (a + 2 + 1) with (a + 3) by lia. apply bind_same. intros m3. reflexivity.
Qed.
Lemma Over4_eq m a : a + 4 <= k -> OverWr4 P d off m a = (do m <- OverWr P d off m a; do m <- OverWr P d off m (a + 1); do m <- OverWr P d off m (a + 1 + 1); OverWr P d off m (a + 1 + 1 + 1)).
Proof.
  intros H. unfold OverWr4. rewrite !LOAD256u_ok by lia. cbn [bind]. rewrite intleave_ok. rewrite st_al. unfold OverWr. rewrite !LOAD4_ok by lia. cbn [bind]. rewrite st_al. rewrite Nat.add_0_r. apply bind_same. intros m1. rewrite st_al. apply bind_same. intros m2. rewrite !st_al. replace (a + 1 + 1) with (a + 2) by lia. replace (a + 2 + 1) with (a + 3) by lia. apply bind_same. intros m3. symmetry. apply st_al.
Qed.
Lemma step4 (one four : bytes -> nat -> res bytes) (Inv : nat -> bytes -> Prop) : (forall s a, Inv a s -> a < k -> exists s', one s a = Ok s' /\ Inv (a + 1) s') ->
  (forall m a, a + 4 <= k -> four m a = (do m <- one m a; do m <- one m (a + 1); do m <- one m (a + 1 + 1); one m (a + 1 + 1 + 1))) ->
  forall s a, Inv a s -> a + 4 <= k -> exists s', four s a = Ok s' /\ Inv (a + 4) s'.
Proof.
  intros H1 E4 s a H Ha. rewrite E4 by exact Ha. destruct (H1 _ _ H ltac:(lia)) as (s1 & -> & I1). cbn [bind]. destruct (H1 _ _ I1 ltac:(lia)) as (s2 & -> & I2). cbn [bind]. destruct (H1 _ _ I2 ltac:(lia)) as (s3 & -> & I3). cbn [bind].
  destruct (H1 _ _ I3 ltac:(lia)) as (s5 & E & I5). exists s5. split; [exact E|]. replace (a + 4) with (a + 1 + 1 + 1 + 1) by lia. exact I5.
Qed.
Lemma add_all_ok m : lay4 m sts -> exists m', add_lanes_all P m d k off = Ok m' /\ lay4 m' (map (added k) (seq 0 4)).
Proof.
  intros H. apply (lanes_all_inv _ _ (fun a m => lay4 m (map (added a) (seq 0 4)))); [exact Xor_step|apply (step4 _ _ (fun a m => lay4 m (map (added a) (seq 0 4))) Xor_step Xor4_eq)|].
  replace (map (added 0) (seq 0 4)) with sts; [exact H|]. destruct (four_cases sts L4) as (x & y & z & t & E4). unfold added, slice. cbn [seq map Nat.mul firstn xorl nth]. rewrite !put_nil. rewrite E4. reflexivity.
Qed.
Lemma over_all_ok m : lay4 m sts -> exists m', overwrite_lanes_all P m d k off = Ok m' /\ lay4 m' (map (over k) (seq 0 4)).
Proof.
  intros H. apply (lanes_all_inv _ _ (fun a m => lay4 m (map (over a) (seq 0 4)))); [exact Over_step|apply (step4 _ _ (fun a m => lay4 m (map (over a) (seq 0 4))) Over_step Over4_eq)|].
  replace (map (over 0) (seq 0 4)) with sts; [exact H|]. destruct (four_cases sts L4) as (x & y & z & t & E4). unfold over, slice. cbn [seq map Nat.mul firstn nth]. rewrite !put_nil. rewrite E4. reflexivity.
Qed.
End Write.

(** *** lanes of all states written to memory *)
Lemma put_comm (m A B : bytes) a b : a + length A <= length m -> b + length B <= length m -> a + length A <= b \/ b + length B <= a -> put (put m a A) b B = put (put m b B) a A.
Proof.
  intros Ha Hb Hs. apply (nth_ext _ _ 0%N 0%N); [rewrite !put_length by (rewrite ?put_length; lia); reflexivity|]. intros t _. rewrite !put_nth by (rewrite ?put_length; lia).
  destruct (Nat.leb_spec a t), (Nat.leb_spec b t), (Nat.ltb_spec t (a + length A)), (Nat.ltb_spec t (b + length B)); cbn [andb]; try reflexivity; lia.
Qed.
Section Read.
Variables (m : bytes) (k off : nat) (sts : list bytes) (out : bytes).
Hypothesis Lay : lay4 m sts.
Hypothesis Hk : k <= 25.
Hypothesis Hko : k <= off.
Hypothesis Hout : 8 * off * 3 + 8 * k <= length out.
(** D i a: the first a lanes to be written for state i *)
Definition put4 (D : nat -> bytes) : bytes := put (put (put (put out (8 * off * 0) (D 0)) (8 * off * 1) (D 1)) (8 * off * 2) (D 2)) (8 * off * 3) (D 3).
Lemma put4_more (D R : nat -> bytes) a w : a + w <= k -> (forall i, i < 4 -> length (D i) = 8 * a) -> (forall i, i < 4 -> length (R i) = 8 * w) ->
  put (put (put (put (put4 D) (8 * (off * 0 + a)) (R 0)) (8 * (off * 1 + a)) (R 1)) (8 * (off * 2 + a)) (R 2)) (8 * (off * 3 + a)) (R 3) = put4 (fun i => D i ++ R i).
Proof.
  intros Hw LD LR. pose proof (LD 0 ltac:(lia)) as D0. pose proof (LD 1 ltac:(lia)) as D1. pose proof (LD 2 ltac:(lia)) as D2. pose proof (LD 3 ltac:(lia)) as D3.
  pose proof (LR 0 ltac:(lia)) as R0. pose proof (LR 1 ltac:(lia)) as R1. pose proof (LR 2 ltac:(lia)) as R2. pose proof (LR 3 ltac:(lia)) as R3. unfold put4. clear LD LR.
  replace (8 * (off * 0 + a)) with (8 * off * 0 + length (D 0)) by lia. replace (8 * (off * 1 + a)) with (8 * off * 1 + length (D 1)) by lia. replace (8 * (off * 2 + a)) with (8 * off * 2 + length (D 2)) by lia. replace (8 * (off * 3 + a)) with (8 * off * 3 + length (D 3)) by lia.
  generalize dependent (D 0). intros x0 D0. generalize dependent (D 1). intros x1 D1. generalize dependent (D 2). intros x2 D2. generalize dependent (D 3). intros x3 D3.
  generalize dependent (R 0). intros y0 R0. generalize dependent (R 1). intros y1 R1. generalize dependent (R 2). intros y2 R2. generalize dependent (R 3). intros y3 R3.
  rewrite (put_comm _ x3 y0) by (rewrite ?put_length; rewrite ?put_length; rewrite ?put_length; lia).
  rewrite (put_comm _ x2 y0) by (rewrite ?put_length; rewrite ?put_length; lia).
  rewrite (put_comm _ x1 y0) by (rewrite ?put_length; lia). rewrite <- (put_app out (8 * off * 0) x0 y0) by lia.
  set (o0 := put out (8 * off * 0) (x0 ++ y0)). assert (L0 : length o0 = length out) by (unfold o0; apply put_length; rewrite app_length; lia). clearbody o0.
  rewrite (put_comm _ x3 y1) by (rewrite ?put_length; rewrite ?put_length; lia). rewrite (put_comm _ x2 y1) by (rewrite ?put_length; lia). rewrite <- (put_app o0 (8 * off * 1) x1 y1) by lia.
  set (o1 := put o0 (8 * off * 1) (x1 ++ y1)). assert (L1 : length o1 = length out) by (unfold o1; rewrite put_length; rewrite ?app_length; lia). clearbody o1.
  rewrite (put_comm _ x3 y2) by (rewrite ?put_length; lia). rewrite <- (put_app o1 (8 * off * 2) x2 y2) by lia.
  set (o2 := put o1 (8 * off * 2) (x2 ++ y2)). assert (L2 : length o2 = length out) by (unfold o2; rewrite put_length; rewrite ?app_length; lia). clearbody o2.
  rewrite <- (put_app o2 (8 * off * 3) x3 y3) by lia. reflexivity.
Qed.
Lemma put4_length D : (forall i, i < 4 -> length (D i) <= 8 * k) -> length (put4 D) = length out.
Proof.
  intros LD. pose proof (LD 0 ltac:(lia)) as D0. pose proof (LD 1 ltac:(lia)) as D1. pose proof (LD 2 ltac:(lia)) as D2. pose proof (LD 3 ltac:(lia)) as D3. unfold put4. rewrite !put_length; rewrite ?put_length; rewrite ?put_length; rewrite ?put_length; lia.
Qed.
Lemma load_one i a : i < 4 -> a < 25 -> load64 m (4 * a + i) = Ok (lane (nth i sts []) a).
Proof. intros Hi Ha. pose proof (lay_load 4 100 lane_index idx_lt m sts i a Lay Hi Ha) as X. unfold lane_index in X. rewrite <- X. f_equal. lia. Qed.
Definition srow (i a : nat) : V256 := vrow (nth i sts []) a.
Lemma load_rows_ok a : a + 4 <= 25 -> load_rows P m a = Ok (srow 0 a, srow 1 a, srow 2 a, srow 3 a).
Proof.
  intros Ha. unfold load_rows. rewrite st_al. unfold LOAD256. rewrite Nat.add_0_r.
  assert (X : forall j, j < 25 -> load64 m (4 * j) = Ok (lane (nth 0 sts []) j)) by (intros j Hj; rewrite <- (load_one 0 j ltac:(lia) Hj); f_equal; lia).
  rewrite !X by lia. rewrite !load_one by lia. reflexivity.
Qed.
Definition word4 (v : V256) : bytes := le_bytes 8 (w0 v) ++ le_bytes 8 (w1 v) ++ le_bytes 8 (w2 v) ++ le_bytes 8 (w3 v).
Lemma word4_length v : length (word4 v) = 32.
Proof. unfold word4. rewrite !app_length, !le_bytes_length. reflexivity. Qed.
Lemma word4_row (d : bytes) a : is_bytes d -> 8 * a + 32 <= length d -> word4 (vrow d a) = slice d (8 * a) 32.
Proof.
  intros B H. unfold word4, vrow. cbn [w0 w1 w2 w3]. rewrite !lane_le_bytes by (assumption || lia). replace (8 * (a + 3)) with (8 * (a + 2) + 8) by lia. rewrite slice_app. replace (8 * (a + 2)) with (8 * (a + 1) + 8) by lia. rewrite slice_app. replace (8 * (a + 1)) with (8 * a + 8) by lia. rewrite slice_app. reflexivity.
Qed.
Lemma word4_xor u v : word4 (XOR256 u v) = xorl (word4 u) (word4 v).
Proof. destruct u as [x0 x1 x2 x3], v as [y0 y1 y2 y3]. unfold word4, XOR256. cbn [vmap2 w0 w1 w2 w3]. unfold w_xor. rewrite !le_bytes_lxor. rewrite !xorl_app by (rewrite !le_bytes_length; reflexivity). reflexivity. Qed.
Lemma STOREu_ok o j v : 8 * j + 32 <= length o -> STORE256u o j v = Ok (put o (8 * j) (word4 v)).
Proof. intros H. unfold STORE256u. fold (word4 v). apply write_at_ok. rewrite word4_length. exact H. Qed.
Lemma four_rows o a (r0 r1 r2 r3 : V256) : length o = length out -> a + 4 <= k ->
  (do out <- STORE256u o a r0; do out <- STORE256u out (off * 1 + a) r1; do out <- STORE256u out (off * 2 + a) r2; STORE256u out (off * 3 + a) r3) =
  Ok (put (put (put (put o (8 * (off * 0 + a)) (word4 r0)) (8 * (off * 1 + a)) (word4 r1)) (8 * (off * 2 + a)) (word4 r2)) (8 * (off * 3 + a)) (word4 r3)).
Proof.
  intros L Ha. rewrite STOREu_ok by lia. cbn [bind]. rewrite STOREu_ok by (rewrite !put_length; rewrite ?word4_length; lia). cbn [bind].
  rewrite STOREu_ok by (rewrite !put_length; rewrite ?put_length; rewrite ?word4_length; lia). cbn [bind].
  rewrite STOREu_ok by (rewrite !put_length; rewrite ?put_length; rewrite ?put_length; rewrite ?word4_length; lia). replace (8 * (off * 0 + a)) with (8 * a) by lia. reflexivity.
Qed.
Lemma four_words o a (x0 x1 x2 x3 : N) : length o = length out -> a < k ->
  (do out <- store64 o a x0; do out <- store64 out (off * 1 + a) x1; do out <- store64 out (off * 2 + a) x2; store64 out (off * 3 + a) x3) =
  Ok (put (put (put (put o (8 * (off * 0 + a)) (le_bytes 8 x0)) (8 * (off * 1 + a)) (le_bytes 8 x1)) (8 * (off * 2 + a)) (le_bytes 8 x2)) (8 * (off * 3 + a)) (le_bytes 8 x3)).
Proof.
  intros L Ha. rewrite store64_put by lia. cbn [bind]. rewrite store64_put by (rewrite !put_length; rewrite ?le_bytes_length; lia). cbn [bind].
  rewrite store64_put by (rewrite !put_length; rewrite ?put_length; rewrite ?le_bytes_length; lia). cbn [bind].
  rewrite store64_put by (rewrite !put_length; rewrite ?put_length; rewrite ?put_length; rewrite ?le_bytes_length; lia). replace (8 * (off * 0 + a)) with (8 * a) by lia. reflexivity.
Qed.
Lemma st_len i : i < 4 -> length (nth i sts []) = 200 /\ is_bytes (nth i sts []).
Proof. destruct Lay as (_ & _ & _ & Bs & _). apply Bs. Qed.
Lemma load_zero a : a < 25 -> load64 m (4 * a) = Ok (lane (nth 0 sts []) a).
Proof. intros Ha. rewrite <- (load_one 0 a ltac:(lia) Ha). f_equal. lia. Qed.
Lemma Extr_eq o a : length o = length out -> a < k -> Extr m off o a =
  Ok (put (put (put (put o (8 * (off * 0 + a)) (slice (nth 0 sts []) (8 * a) 8)) (8 * (off * 1 + a)) (slice (nth 1 sts []) (8 * a) 8)) (8 * (off * 2 + a)) (slice (nth 2 sts []) (8 * a) 8)) (8 * (off * 3 + a)) (slice (nth 3 sts []) (8 * a) 8)).
Proof.
  intros L Ha. unfold Extr. rewrite load_zero by lia. cbn [bind]. rewrite (load_one 1) by lia. rewrite (load_one 2) by lia. rewrite (load_one 3) by lia. cbn [bind]. rewrite four_words by assumption.
  destruct (st_len 0 ltac:(lia)), (st_len 1 ltac:(lia)), (st_len 2 ltac:(lia)), (st_len 3 ltac:(lia)). rewrite !lane_le_bytes by (assumption || lia). reflexivity.
Qed.
Lemma Extr4_eq o a : length o = length out -> a + 4 <= k -> Extr4 P m off o a =
  Ok (put (put (put (put o (8 * (off * 0 + a)) (slice (nth 0 sts []) (8 * a) 32)) (8 * (off * 1 + a)) (slice (nth 1 sts []) (8 * a) 32)) (8 * (off * 2 + a)) (slice (nth 2 sts []) (8 * a) 32)) (8 * (off * 3 + a)) (slice (nth 3 sts []) (8 * a) 32)).
Proof.
  intros L Ha. unfold Extr4. rewrite load_rows_ok by lia. cbn [bind]. rewrite four_rows by assumption. unfold srow.
  destruct (st_len 0 ltac:(lia)), (st_len 1 ltac:(lia)), (st_len 2 ltac:(lia)), (st_len 3 ltac:(lia)). rewrite !word4_row by (assumption || lia). reflexivity.
Qed.
Definition ext (a : nat) : bytes := put4 (fun i => slice (nth i sts []) 0 (8 * a)).
Lemma ext_more a w : a + w <= k -> put (put (put (put (ext a) (8 * (off * 0 + a)) (slice (nth 0 sts []) (8 * a) (8 * w))) (8 * (off * 1 + a)) (slice (nth 1 sts []) (8 * a) (8 * w))) (8 * (off * 2 + a)) (slice (nth 2 sts []) (8 * a) (8 * w))) (8 * (off * 3 + a)) (slice (nth 3 sts []) (8 * a) (8 * w)) = ext (a + w).
Proof.
  intros H. unfold ext at 1. etransitivity; [apply (put4_more (fun i => slice (nth i sts []) 0 (8 * a)) (fun i => slice (nth i sts []) (8 * a) (8 * w)) a w H); intros i Hi; destruct (st_len i Hi); apply slice_length; lia|].
  unfold ext, put4. replace (8 * (a + w)) with (8 * a + 8 * w) by lia. rewrite <- !(slice_app _ 0). reflexivity.
Qed.
Lemma ext_length a : a <= k -> length (ext a) = length out.
Proof. intros Ha. apply put4_length. intros i Hi. destruct (st_len i Hi). rewrite slice_length by lia. lia. Qed.
Lemma extract_all_ok : extract_lanes_all P m out k off = Ok (ext k).
Proof.
  destruct (lanes_all_inv (Extr m off) (Extr4 P m off) (fun a o => a <= k /\ o = ext a) k out) as (o & E & _ & ->).
  - intros o a [_ ->] Ha. eexists. split; [apply Extr_eq; [apply ext_length; lia|exact Ha]|]. split; [lia|]. apply (ext_more a 1). lia.
  - intros o a [_ ->] Ha. eexists. split; [apply Extr4_eq; [apply ext_length; lia|exact Ha]|]. split; [lia|]. apply (ext_more a 4). lia.
  - split; [lia|]. unfold ext, put4, slice. cbn [Nat.mul firstn]. rewrite !put_nil. reflexivity.
  - exact E.
Qed.
(** with the input added *)
Variable inp : bytes.
Hypothesis Binp : is_bytes inp.
Hypothesis Hinp : 8 * off * 3 + 8 * k <= length inp.
Local Notation xw i a n := (xorl (slice inp (8 * (off * i + a)) n) (slice (nth i sts []) (8 * a) n)).
Lemma in_word i a : i < 4 -> a < k -> load64 inp (off * i + a) = Ok (lane inp (off * i + a)) /\ le_bytes 8 (lane inp (off * i + a)) = slice inp (8 * (off * i + a)) 8.
Proof. intros Hi Ha. assert (off * i <= off * 3) by (apply Nat.mul_le_mono_l; lia). split; [apply load64_ok; lia|apply lane_le_bytes; [exact Binp|lia]]. Qed.
Lemma ExtrXor_eq o a : length o = length out -> a < k -> ExtrXor m inp off o a =
  Ok (put (put (put (put o (8 * (off * 0 + a)) (xw 0 a 8)) (8 * (off * 1 + a)) (xw 1 a 8)) (8 * (off * 2 + a)) (xw 2 a 8)) (8 * (off * 3 + a)) (xw 3 a 8)).
Proof.
  intros L Ha. unfold ExtrXor. destruct (in_word 0 a ltac:(lia) Ha) as [I0 J0], (in_word 1 a ltac:(lia) Ha) as [I1 J1], (in_word 2 a ltac:(lia) Ha) as [I2 J2], (in_word 3 a ltac:(lia) Ha) as [I3 J3].
  rewrite Nat.mul_0_r, Nat.add_0_l in I0. rewrite I0, I1, I2, I3. cbn [bind]. rewrite load_zero by lia. rewrite (load_one 1) by lia. rewrite (load_one 2) by lia. rewrite (load_one 3) by lia. cbn [bind]. rewrite four_words by assumption.
  destruct (st_len 0 ltac:(lia)), (st_len 1 ltac:(lia)), (st_len 2 ltac:(lia)), (st_len 3 ltac:(lia)). rewrite !le_bytes_lxor. rewrite J1, J2, J3. rewrite Nat.mul_0_r, Nat.add_0_l in J0. rewrite J0. rewrite !lane_le_bytes by (assumption || lia). rewrite Nat.mul_0_r, Nat.add_0_l. reflexivity.
Qed.
Lemma xorl_swap (a : bytes) : forall b, xorl a b = xorl b a.
Proof. induction a as [|x a IH]; intros [|y b]; cbn [xorl]; try reflexivity. rewrite IH, N.lxor_comm. reflexivity. Qed.
Lemma ExtrXor4_eq o a : length o = length out -> a + 4 <= k -> ExtrXor4 P m inp off o a =
  Ok (put (put (put (put o (8 * (off * 0 + a)) (xw 0 a 32)) (8 * (off * 1 + a)) (xw 1 a 32)) (8 * (off * 2 + a)) (xw 2 a 32)) (8 * (off * 3 + a)) (xw 3 a 32)).
Proof.
  intros L Ha. unfold ExtrXor4. rewrite load_rows_ok by lia. cbn [bind]. rewrite !LOAD256u_ok by lia. cbn [bind]. rewrite four_rows by assumption. unfold srow.
  destruct (st_len 0 ltac:(lia)), (st_len 1 ltac:(lia)), (st_len 2 ltac:(lia)), (st_len 3 ltac:(lia)). rewrite !word4_xor. rewrite !word4_row by (assumption || lia). rewrite Nat.mul_0_r, Nat.add_0_l.
  rewrite !(xorl_swap (slice (nth _ sts []) _ _)). reflexivity.
Qed.
Definition exta (a : nat) : bytes := put4 (fun i => xorl (slice inp (8 * off * i) (8 * a)) (slice (nth i sts []) 0 (8 * a))).
Lemma in_len i a n : i < 4 -> 8 * a + n <= 8 * k -> length (slice inp (8 * (off * i + a)) n) = n.
Proof. intros Hi Ha. assert (off * i <= off * 3) by (apply Nat.mul_le_mono_l; lia). apply slice_length. lia. Qed.
Lemma exta_more a w : a + w <= k -> put (put (put (put (exta a) (8 * (off * 0 + a)) (xw 0 a (8 * w))) (8 * (off * 1 + a)) (xw 1 a (8 * w))) (8 * (off * 2 + a)) (xw 2 a (8 * w))) (8 * (off * 3 + a)) (xw 3 a (8 * w)) = exta (a + w).
Proof.
  intros H. assert (LI : forall i n, i < 4 -> n <= 8 * k -> length (slice inp (8 * off * i) n) = n) by (intros i n Hi Hn; pose proof (in_len i 0 n Hi ltac:(lia)) as X; replace (8 * (off * i + 0)) with (8 * off * i) in X by lia; exact X).
  unfold exta at 1. etransitivity; [apply (put4_more (fun i => xorl (slice inp (8 * off * i) (8 * a)) (slice (nth i sts []) 0 (8 * a))) (fun i => xw i a (8 * w)) a w H)|].
  - intros i Hi. destruct (st_len i Hi). rewrite xorl_length, LI, slice_length by lia. lia.
  - intros i Hi. destruct (st_len i Hi). rewrite xorl_length, in_len, slice_length by lia. lia.
  - unfold exta. assert (X : forall i, i < 4 -> xorl (slice inp (8 * off * i) (8 * a)) (slice (nth i sts []) 0 (8 * a)) ++ xw i a (8 * w) = xorl (slice inp (8 * off * i) (8 * (a + w))) (slice (nth i sts []) 0 (8 * (a + w)))).
    { intros i Hi. destruct (st_len i Hi). rewrite <- xorl_app by (rewrite LI, slice_length by lia; reflexivity). replace (8 * (off * i + a)) with (8 * off * i + 8 * a) by lia. rewrite slice_app. replace (8 * a) with (0 + 8 * a) at 4 by lia. rewrite (slice_app (nth i sts [])). f_equal; f_equal; lia. }
    unfold put4. rewrite !X by lia. reflexivity.
Qed.
Lemma exta_length a : a <= k -> length (exta a) = length out.
Proof. intros Ha. apply put4_length. intros i Hi. destruct (st_len i Hi). rewrite xorl_length, (slice_length (nth i sts [])) by lia. lia. Qed.
Lemma xadd_all_ok : xadd_lanes_all P m inp out k off = Ok (exta k).
Proof.
  destruct (lanes_all_inv (ExtrXor m inp off) (ExtrXor4 P m inp off) (fun a o => a <= k /\ o = exta a) k out) as (o & E & _ & ->).
  - intros o a [_ ->] Ha. eexists. split; [apply ExtrXor_eq; [apply exta_length; lia|exact Ha]|]. split; [lia|]. apply (exta_more a 1). lia.
  - intros o a [_ ->] Ha. eexists. split; [apply ExtrXor4_eq; [apply exta_length; lia|exact Ha]|]. split; [lia|]. apply (exta_more a 4). lia.
  - split; [lia|]. unfold exta, put4, slice. cbn [Nat.mul firstn xorl]. rewrite !put_nil. reflexivity.
  - exact E.
Qed.
End Read.
End All.
