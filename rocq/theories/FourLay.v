(** Writing bytes of one of four interleaved states, and of all of them *)
From Coq Require Import Arith NArith List Bool Lia.
From Verif Require Import Prelude SpongeModel SpongeFacts KeccakSpec KeccakModel KeccakFacts KeccakBytes SnpMem SnpLayout SnpSponge SnpSim Opt64Model Opt64Facts Opt64More Opt64MoreFacts X86Model Simd256Model Simd256Round Simd256Facts StateSpec PutFacts FourSpec FourModel.
Import ListNotations.

Lemma lay_put m sts i j k d : lay4 m sts -> i < 4 -> j < 25 -> k + length d <= 8 -> is_bytes d ->
  lay4 (put m (8 * lane_index i j + k) d) (upd sts i (put (nth i sts []) (8 * j + k) d)).
Proof.
  intros H Hi Hj Hk Hd. pose proof H as (Lm & Bm & Ls & Bs & HS). pose proof (idx_lt i j Hi Hj) as X. destruct (Bs i Hi) as [L1 B1].
  rewrite put_xin by lia. rewrite (put_xin (nth i sts [])) by lia.
  assert (E : diff m (8 * lane_index i j + k) d = diff (nth i sts []) (8 * j + k) d).
  { unfold diff. f_equal. rewrite <- (slice_slice m (8 * lane_index i j) 8) by lia. rewrite HS by assumption. rewrite slice_slice by lia. reflexivity. }
  rewrite E. apply (lay_xin 4 100 lane_index idx_lt idx_inj); try assumption; [rewrite diff_length by lia; lia|apply diff_bytes; assumption].
Qed.
Lemma store64_put m i v : 8 * i + 8 <= length m -> store64 m i v = Ok (put m (8 * i) (le_bytes 8 v)).
Proof. intros H. unfold store64. replace (8 * i + 8 <=? length m) with true by (symmetry; apply Nat.leb_le; exact H). unfold put. rewrite le_bytes_length. reflexivity. Qed.
Lemma lay_write m sts i j k d : lay4 m sts -> i < 4 -> j < 25 -> k + length d <= 8 -> is_bytes d ->
  exists m', write_at m (8 * lane_index i j + k) d = Ok m' /\ lay4 m' (upd sts i (put (nth i sts []) (8 * j + k) d)).
Proof.
  intros H Hi Hj Hk Hd. pose proof (idx_lt i j Hi Hj) as X. eexists. split; [apply write_at_ok; destruct H as (Lm & _); lia|]. apply lay_put; assumption.
Qed.
Lemma lay_store m sts i j v : lay4 m sts -> i < 4 -> j < 25 ->
  exists m', store64 m (lane_index i j) v = Ok m' /\ lay4 m' (upd sts i (put (nth i sts []) (8 * j) (le_bytes 8 v))).
Proof.
  intros H Hi Hj. pose proof (idx_lt i j Hi Hj) as X. eexists. split; [apply store64_put; destruct H as (Lm & _); lia|]. pose proof (lay_put m sts i j 0 (le_bytes 8 v) H Hi Hj) as Y. rewrite !Nat.add_0_r in Y. apply Y; [rewrite le_bytes_length; lia|apply le_bytes_is_bytes].
Qed.

(** *** overwriting *)
Lemma over_whole_ok i : i < 4 -> forall fuel m sts d n lp, lay4 m sts -> n < fuel -> 8 * lp + n <= 200 -> n <= length d -> is_bytes d ->
  exists m' q, 8 * q <= n /\ n < 8 * q + 8 /\ over_whole fuel m i d n lp = Ok (m', skipn (8 * q) d, n - 8 * q, lp + q) /\
    lay4 m' (upd sts i (put (nth i sts []) (8 * lp) (firstn (8 * q) d))).
Proof.
  intros Hi. induction fuel as [|fuel IH]; intros m sts d n lp H Hf Hn Hl Hd; [lia|]. cbn [over_whole]. pose proof (lay4_four _ _ H) as L4. pose proof H as (_ & _ & _ & Bs & _). destruct (Bs i Hi) as [L1 _]. destruct (Nat.leb_spec 8 n) as [A|A].
  - destruct (lay_store m sts i lp (lane d 0) H Hi ltac:(lia)) as (m1 & E1 & H1).
    rewrite load64_ok by lia. cbn [bind]. rewrite E1. cbn [bind]. rewrite lane_le_bytes in H1 by (assumption || lia). change (slice d (8 * 0) 8) with (firstn 8 d) in H1.
    destruct (IH m1 _ (skipn 8 d) (n - 8) (lp + 1) H1 ltac:(lia) ltac:(lia) ltac:(rewrite skipn_length; lia) (skipn_bytes _ _ Hd)) as (m' & q & Q1 & Q2 & E & H').
    exists m', (S q). split; [lia|]. split; [lia|]. split.
    + rewrite E. f_equal. replace (8 * S q) with (8 + 8 * q) by lia. rewrite skip_skip. f_equal; [f_equal|]; lia.
    + rewrite nth_here, upd_again in H' by lia. match type of H' with lay4 _ (upd _ _ ?x) => match goal with |- lay4 _ (upd _ _ ?y) => replace y with x; [exact H'|] end end.
      replace (8 * S q) with (8 + 8 * q) by lia. rewrite <- firstn_firstn_skip. assert (LF : length (firstn 8 d) = 8) by (rewrite firstn_length; lia). rewrite put_app by (rewrite LF, firstn_length; lia). f_equal. lia.
  - exists m, 0. split; [lia|]. split; [lia|]. change (8 * 0) with 0. rewrite firstn_O, put_nil, upd_here by lia. cbn [skipn]. rewrite Nat.sub_0_r, Nat.add_0_r. split; [reflexivity|exact H].
Qed.
Lemma over_bytes1_ok m sts i d off k : lay4 m sts -> i < 4 -> off + k <= 200 -> k <= length d -> is_bytes d ->
  exists m', over_bytes1 m i d off k = Ok m' /\ lay4 m' (upd sts i (put (nth i sts []) off (firstn k d))).
Proof.
  intros H Hi Hn Hl Hd. unfold over_bytes1. cbv zeta. pose proof (Nat.div_mod off 8 ltac:(discriminate)) as E. pose proof (Nat.mod_upper_bound off 8 ltac:(discriminate)) as U. pose proof (lay4_four _ _ H) as L4.
  pose proof H as (_ & _ & _ & Bs & _). destruct (Bs i Hi) as [L1 _].
  set (lp := off / 8) in *. set (ol := off mod 8) in *. clearbody lp ol. subst off.
  assert (G : forall m1 d1 n1 lp1 (st1 : bytes), length st1 = 200 -> lay4 m1 (upd sts i st1) -> 8 * lp1 + n1 <= 200 -> n1 <= length d1 -> is_bytes d1 ->
    exists m', (do (m, curData, sizeLeft, lanePosition) <- over_whole (S n1) m1 i d1 n1 lp1;
      if 0 <? sizeLeft then do part <- read curData 0 sizeLeft; write_at m (8 * lane_index i lanePosition) part else Ok m) = Ok m' /\
      lay4 m' (upd sts i (put st1 (8 * lp1) (firstn n1 d1)))).
  { intros m1 d1 n1 lp1 st1 LS H1 A1 A2 A3. destruct (over_whole_ok i Hi (S n1) m1 _ d1 n1 lp1 H1 ltac:(lia) A1 A2 A3) as (m2 & q & Q1 & Q2 & E2 & H2). rewrite E2. cbn [bind]. rewrite nth_here, upd_again in H2 by lia.
    destruct (Nat.ltb_spec 0 (n1 - 8 * q)) as [B|B].
    - assert (LF : length (firstn (8 * q) d1) = 8 * q) by (rewrite firstn_length; lia). assert (LT : length (firstn (n1 - 8 * q) (skipn (8 * q) d1)) = n1 - 8 * q) by (rewrite firstn_length, skipn_length; lia).
      rewrite read0 by (rewrite skipn_length; lia). cbn [bind].
      destruct (lay_write m2 _ i (lp1 + q) 0 (firstn (n1 - 8 * q) (skipn (8 * q) d1)) H2 Hi ltac:(lia) ltac:(lia) (firstn_bytes _ _ (skipn_bytes _ _ A3))) as (m' & E' & H'). rewrite Nat.add_0_r in E'. exists m'. split; [exact E'|]. rewrite nth_here, upd_again in H' by lia.
      match type of H' with lay4 _ (upd _ _ ?x) => match goal with |- lay4 _ (upd _ _ ?y) => replace y with x; [exact H'|] end end.
      replace (firstn n1 d1) with (firstn (8 * q) d1 ++ firstn (n1 - 8 * q) (skipn (8 * q) d1)) by (rewrite firstn_firstn_skip; f_equal; lia). rewrite put_app by lia. f_equal. lia.
    - exists m2. split; [reflexivity|]. replace n1 with (8 * q) by lia. exact H2. }
  destruct (Nat.ltb_spec 0 k) as [A|A]; cbn [andb].
  - destruct (Nat.eqb_spec ol 0) as [->|No]; cbn [negb].
    + cbn [bind]. rewrite Nat.add_0_r. apply G; [exact L1|rewrite upd_here by lia; exact H|lia|exact Hl|exact Hd].
    + set (b := if k <? 8 - ol then k else 8 - ol). assert (Hb : 0 < b /\ b <= k /\ ol + b <= 8 /\ (b < k -> ol + b = 8)) by (unfold b; destruct (Nat.ltb_spec k (8 - ol)); lia). clearbody b.
      assert (LF : length (firstn b d) = b) by (rewrite firstn_length; lia). rewrite read0 by lia. cbn [bind].
      destruct (lay_write m sts i lp ol (firstn b d) H Hi ltac:(lia) ltac:(lia) (firstn_bytes _ _ Hd)) as (m1 & E1 & H1). rewrite E1. cbn [bind].
      assert (LS : length (put (nth i sts []) (8 * lp + ol) (firstn b d)) = 200) by (rewrite put_length by lia; exact L1).
      destruct (G m1 (skipn b d) (k - b) (lp + 1) _ LS H1) as (m' & E' & H'); [|rewrite skipn_length; lia|apply skipn_bytes; exact Hd|].
      { destruct (Nat.eq_dec b k); lia. }
      exists m'. split; [exact E'|].
      match type of H' with lay4 _ (upd _ _ ?x) => match goal with |- lay4 _ (upd _ _ ?y) => replace y with x; [exact H'|] end end.
      destruct (Nat.eq_dec b k) as [->|Nb]; [rewrite Nat.sub_diag, firstn_O, put_nil; reflexivity|].
      replace (firstn k d) with (firstn b d ++ firstn (k - b) (skipn b d)) by (rewrite firstn_firstn_skip; f_equal; lia). rewrite put_app by (rewrite LF, firstn_length, skipn_length; lia). f_equal. lia.
  - replace k with 0 in * by lia. cbn [bind]. cbn [over_whole Nat.leb bind Nat.ltb]. exists m. split; [reflexivity|]. rewrite firstn_O, put_nil, upd_here by lia. exact H.
Qed.
Lemma repeat_split (n q : nat) : q <= n -> repeat 0%N n = repeat 0%N q ++ repeat 0%N (n - q).
Proof. intros H. rewrite <- repeat_app. f_equal. lia. Qed.
Lemma zeros_b n : is_bytes (repeat 0%N n).
Proof. apply (is_bytes_zeros n). Qed.
Lemma zero_whole_ok i : i < 4 -> forall fuel m sts n lp, lay4 m sts -> n < fuel -> 8 * lp + n <= 200 ->
  exists m' q, 8 * q <= n /\ n < 8 * q + 8 /\ zero_whole fuel m i n lp = Ok (m', n - 8 * q, lp + q) /\
    lay4 m' (upd sts i (put (nth i sts []) (8 * lp) (repeat 0%N (8 * q)))).
Proof.
  intros Hi. induction fuel as [|fuel IH]; intros m sts n lp H Hf Hn; [lia|]. cbn [zero_whole]. pose proof (lay4_four _ _ H) as L4. pose proof H as (_ & _ & _ & Bs & _). destruct (Bs i Hi) as [L1 _]. destruct (Nat.leb_spec 8 n) as [A|A].
  - destruct (lay_store m sts i lp 0%N H Hi ltac:(lia)) as (m1 & E1 & H1). rewrite E1. cbn [bind]. change (le_bytes 8 0) with (repeat 0%N 8) in H1.
    destruct (IH m1 _ (n - 8) (lp + 1) H1 ltac:(lia) ltac:(lia)) as (m' & q & Q1 & Q2 & E & H').
    exists m', (S q). split; [lia|]. split; [lia|]. split.
    + rewrite E. f_equal. f_equal; [f_equal|]; lia.
    + rewrite nth_here, upd_again in H' by lia. match type of H' with lay4 _ (upd _ _ ?x) => match goal with |- lay4 _ (upd _ _ ?y) => replace y with x; [exact H'|] end end.
      rewrite (repeat_split (8 * S q) 8) by lia. rewrite put_app by (rewrite !repeat_length; lia). rewrite repeat_length. replace (8 * S q - 8) with (8 * q) by lia. f_equal. lia.
  - exists m, 0. split; [lia|]. split; [lia|]. change (8 * 0) with 0. cbn [repeat]. rewrite put_nil, upd_here by lia. rewrite Nat.sub_0_r, Nat.add_0_r. split; [reflexivity|exact H].
Qed.
Lemma zeroes1_ok m sts i n : lay4 m sts -> i < 4 -> n <= 200 -> exists m', zeroes1 m i n = Ok m' /\ lay4 m' (upd sts i (put (nth i sts []) 0 (repeat 0%N n))).
Proof.
  intros H Hi Hn. unfold zeroes1. pose proof (lay4_four _ _ H) as L4. pose proof H as (_ & _ & _ & Bs & _). destruct (Bs i Hi) as [L1 _].
  destruct (zero_whole_ok i Hi (S n) m sts n 0 H ltac:(lia) ltac:(lia)) as (m2 & q & Q1 & Q2 & E2 & H2). rewrite E2. cbn [bind]. rewrite Nat.add_0_l. change (8 * 0) with 0 in H2. destruct (Nat.ltb_spec 0 (n - 8 * q)) as [B|B].
  - destruct (lay_write m2 _ i q 0 (repeat 0%N (n - 8 * q)) H2 Hi ltac:(lia) ltac:(rewrite repeat_length; lia) (zeros_b _)) as (m' & E' & H'). rewrite Nat.add_0_r in E'. exists m'. split; [exact E'|]. rewrite nth_here, upd_again in H' by lia.
    match type of H' with lay4 _ (upd _ _ ?x) => match goal with |- lay4 _ (upd _ _ ?y) => replace y with x; [exact H'|] end end.
    rewrite (repeat_split n (8 * q)) by lia. rewrite put_app by (rewrite !repeat_length; lia). rewrite repeat_length. f_equal. lia.
  - exists m2. split; [reflexivity|]. replace n with (8 * q) by lia. exact H2.
Qed.

(** *** extracting and adding *)
Lemma lay_part m sts i j k n : lay4 m sts -> i < 4 -> j < 25 -> k + n <= 8 -> slice m (8 * lane_index i j + k) n = slice (nth i sts []) (8 * j + k) n.
Proof. intros (Lm & Bm & Ls & Bs & H) Hi Hj Hk. rewrite <- (slice_slice m (8 * lane_index i j) 8) by lia. rewrite H by assumption. apply slice_slice. lia. Qed.
Lemma xadd_whole_ok p q d m sts i : lay4 m sts -> i < 4 -> is_bytes d -> forall fuel P n lp, n < fuel -> 8 * lp + n <= 200 -> q + length P + n <= length d -> p + length P + n <= length d -> q <= p \/ p + length P + n <= q ->
  exists r, 8 * r <= n /\ n < 8 * r + 8 /\
  xadd_whole fuel m i (put d q P) (p + length P) (q + length P) n lp = Ok (put d q (P ++ xorl (slice d (p + length P) (8 * r)) (slice (nth i sts []) (8 * lp) (8 * r))), p + length P + 8 * r, q + length P + 8 * r, n - 8 * r, lp + r).
Proof.
  intros H Hi Bd. pose proof H as (Lm & Bm & Ls & Bs & HS). destruct (Bs i Hi) as [L1 B1]. induction fuel as [|fuel IH]; intros P n lp Hf Hn Hq Hp Hs; [lia|]. cbn [xadd_whole]. destruct (Nat.leb_spec 8 n) as [A|A].
  - rewrite read_ok by (rewrite put_length; lia). cbn [bind]. rewrite slice_put by lia. rewrite (lay_load 4 100 lane_index idx_lt m sts i lp H Hi ltac:(lia)). cbn [bind]. rewrite le_bytes_lxor. rewrite lane_le_bytes by (assumption || lia).
    assert (W : le_bytes 8 (le_word (slice d (p + length P) 8)) = slice d (p + length P) 8) by (rewrite <- (slice_length d (p + length P) 8) at 1 by lia; apply le_bytes_word; apply slice_bytes; exact Bd). rewrite W. clear W.
    set (b := xorl _ _). assert (Lb : length b = 8) by (unfold b; rewrite xorl_length, !slice_length by lia; reflexivity). assert (LP : length (P ++ b) = length P + 8) by (rewrite app_length; lia).
    rewrite write_at_ok by (rewrite put_length; lia). cbn [bind]. rewrite <- put_app by lia. replace (p + length P + 8) with (p + length (P ++ b)) by lia. replace (q + length P + 8) with (q + length (P ++ b)) by lia.
    destruct (IH (P ++ b) (n - 8) (lp + 1) ltac:(lia) ltac:(lia) ltac:(lia) ltac:(lia) ltac:(lia)) as (r & R1 & R2 & E). exists (S r). split; [lia|]. split; [lia|]. rewrite E.
    assert (X : (P ++ b) ++ xorl (slice d (p + length (P ++ b)) (8 * r)) (slice (nth i sts []) (8 * (lp + 1)) (8 * r)) = P ++ xorl (slice d (p + length P) (8 * S r)) (slice (nth i sts []) (8 * lp) (8 * S r))).
    { rewrite <- app_assoc. f_equal. replace (8 * S r) with (8 + 8 * r) by lia. rewrite <- (slice_app d), <- (slice_app (nth i sts [])). rewrite xorl_app by (rewrite !slice_length by lia; reflexivity). unfold b at 1. rewrite LP. rewrite Nat.add_assoc. replace (8 * (lp + 1)) with (8 * lp + 8) by lia. reflexivity. }
    rewrite X. f_equal. rewrite LP. f_equal; [f_equal; [f_equal; [f_equal|]|]|]; lia.
  - exists 0. split; [lia|]. split; [lia|]. change (8 * 0) with 0. unfold slice. cbn [firstn xorl]. rewrite app_nil_r, Nat.sub_0_r, !Nat.add_0_r. reflexivity.
Qed.
Lemma xadd_bytes1_ok m sts i d p q off n : lay4 m sts -> i < 4 -> is_bytes d -> off + n <= 200 -> p + n <= length d -> q + n <= length d -> q <= p \/ p + n <= q ->
  xadd_bytes1 m i d p q off n = Ok (put d q (xorl (slice d p n) (slice (nth i sts []) off n))).
Proof.
  intros H Hi Bd Hn Hp Hq Hs. unfold xadd_bytes1. cbv zeta. pose proof (Nat.div_mod off 8 ltac:(discriminate)) as E. pose proof (Nat.mod_upper_bound off 8 ltac:(discriminate)) as U.
  pose proof H as (Lm & Bm & Ls & Bs & HS). destruct (Bs i Hi) as [L1 B1]. set (lp := off / 8) in *. set (ol := off mod 8) in *. clearbody lp ol. subst off. set (st := nth i sts []) in *.
  assert (G : forall P n1 lp1, 8 * lp1 + n1 <= 200 -> q + length P + n1 <= length d -> p + length P + n1 <= length d -> q <= p \/ p + length P + n1 <= q ->
    (do (mem, input, output, sizeLeft, lanePosition) <- xadd_whole (S n1) m i (put d q P) (p + length P) (q + length P) n1 lp1;
     if negb (sizeLeft =? 0) then xadd_in_lane m (lane_index i lanePosition) mem input output 0 sizeLeft else Ok mem) =
    Ok (put d q (P ++ xorl (slice d (p + length P) n1) (slice st (8 * lp1) n1)))).
  { intros P n1 lp1 A1 A2 A3 A4. destruct (xadd_whole_ok p q d m sts i H Hi Bd (S n1) P n1 lp1 ltac:(lia) A1 A2 A3 A4) as (r & R1 & R2 & E). rewrite E. cbn [bind]. clear E. fold st.
    set (e := xorl (slice d (p + length P) (8 * r)) (slice st (8 * lp1) (8 * r))). assert (Le : length e = 8 * r) by (unfold e; rewrite xorl_length, !slice_length by lia; lia). assert (LP : length (P ++ e) = length P + 8 * r) by (rewrite app_length; lia).
    destruct (Nat.eqb_spec (n1 - 8 * r) 0) as [Z|Z]; cbn [negb].
    - unfold e. replace (8 * r) with n1 by lia. reflexivity.
    - replace (p + length P + 8 * r) with (p + length (P ++ e)) by lia. replace (q + length P + 8 * r) with (q + length (P ++ e)) by lia. pose proof (idx_lt i (lp1 + r) Hi ltac:(lia)).
      rewrite xadd_in_lane_ok by (assumption || lia). rewrite (lay_part m sts i (lp1 + r) 0 (n1 - 8 * r) H Hi) by lia. fold st. f_equal. f_equal. rewrite <- app_assoc. f_equal. rewrite LP.
      replace (slice d (p + length P) n1) with (slice d (p + length P) (8 * r) ++ slice d (p + length P + 8 * r) (n1 - 8 * r)) by (rewrite slice_app; f_equal; lia).
      replace (slice st (8 * lp1) n1) with (slice st (8 * lp1) (8 * r) ++ slice st (8 * lp1 + 8 * r) (n1 - 8 * r)) by (rewrite slice_app; f_equal; lia).
      rewrite xorl_app by (rewrite !slice_length by lia; reflexivity). unfold e. rewrite Nat.add_assoc. replace (8 * (lp1 + r) + 0) with (8 * lp1 + 8 * r) by lia. reflexivity. }
  destruct (Nat.ltb_spec 0 n) as [A|A]; cbn [andb].
  - destruct (Nat.eqb_spec ol 0) as [->|No]; cbn [negb].
    + cbn [bind]. pose proof (G [] n lp) as X. cbn [length app] in X. rewrite !Nat.add_0_r, put_nil in X. rewrite Nat.add_0_r. apply X; lia.
    + set (b := if n <? 8 - ol then n else 8 - ol). assert (Hb : 0 < b /\ b <= n /\ ol + b <= 8 /\ (b < n -> ol + b = 8)) by (unfold b; destruct (Nat.ltb_spec n (8 - ol)); lia). clearbody b.
      pose proof (idx_lt i lp Hi ltac:(lia)) as X1. pose proof (xadd_in_lane_ok p q d [] m (lane_index i lp) ol b Bm ltac:(lia) ltac:(lia)) as X. cbn [length app] in X. rewrite !Nat.add_0_r, put_nil in X. rewrite X by lia. cbn [bind]. clear X.
      rewrite (lay_part m sts i lp ol b H Hi) by lia. fold st. set (e := xorl _ _). assert (Le : length e = b) by (unfold e; rewrite xorl_length, !slice_length by lia; lia).
      replace (p + b) with (p + length e) by lia. replace (q + b) with (q + length e) by lia. destruct (Nat.eq_dec b n) as [->|Nb].
      * rewrite Nat.sub_diag. cbn [xadd_whole Nat.leb bind Nat.eqb negb]. reflexivity.
      * rewrite G by lia. f_equal. f_equal. rewrite Le. replace (8 * (lp + 1)) with (8 * lp + ol + b) by lia. unfold e.
        rewrite <- xorl_app by (rewrite !slice_length by lia; reflexivity). rewrite !slice_app. replace (b + (n - b)) with n by lia. reflexivity.
  - replace n with 0 by lia. cbn [bind xadd_whole Nat.leb Nat.eqb negb]. unfold slice. cbn [firstn xorl]. rewrite put_nil. reflexivity.
Qed.
