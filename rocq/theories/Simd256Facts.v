(** The four-way functions of KeccakP-1600-times4-SIMD256.c do to four interleaved states what the byte-wise ones do. *)
From Coq Require Import Arith NArith List Bool Lia.
From Verif Require Import Prelude SpongeModel SpongeFacts SpongeApi KeccakModel KeccakFacts KeccakBytes SnpMem SnpLayout SnpSponge SnpSim SnpSim4 Opt64Model Opt64Facts X86Model Simd256Model Simd256Round.
Import ListNotations.

Definition lay4 : bytes -> list bytes -> Prop := lay 4 100 lane_index.
Lemma idx_lt i j : i < 4 -> j < 25 -> lane_index i j < 100.
Proof. unfold lane_index. lia. Qed.
Lemma idx_inj i j i' j' : i < 4 -> j < 25 -> i' < 4 -> j' < 25 -> lane_index i j = lane_index i' j' -> i = i' /\ j = j'.
Proof. unfold lane_index. lia. Qed.
Lemma upd_again {A} (l : list A) : forall i x y, upd (upd l i x) i y = upd l i y.
Proof. induction l; intros i x y; destruct i; cbn [upd]; try reflexivity. rewrite IHl. reflexivity. Qed.
Lemma upd_here {A} (l : list A) : forall i d, i < length l -> upd l i (nth i l d) = l.
Proof. induction l; intros i d Hi; [cbn in Hi; lia|]. destruct i; cbn [upd nth]; [reflexivity|]. rewrite IHl by (cbn in Hi; lia). reflexivity. Qed.
Lemma nth_here {A} (l : list A) : forall i d x, i < length l -> nth i (upd l i x) d = x.
Proof. induction l; intros i d x Hi; [cbn in Hi; lia|]. destruct i; cbn [upd nth]; [reflexivity|]. apply IHl. cbn in Hi. lia. Qed.
Lemma skip_skip {A} (l : list A) : forall a b, skipn a (skipn b l) = skipn (b + a) l.
Proof. intros a b. revert l. induction b; intros l; [reflexivity|]. destruct l; cbn [skipn Nat.add]; [apply skipn_nil|apply IHb]. Qed.
Lemma lay4_four m sts : lay4 m sts -> length sts = 4.
Proof. intros (_ & _ & H & _). exact H. Qed.

(** *** adding bytes *)
Lemma part_ok m sts i j k b d : lay4 m sts -> i < 4 -> j < 25 -> k + b <= 8 -> k < 8 -> b <= length d -> is_bytes d ->
  exists m', (do part <- load_part d b; do lane <- shl64 part (k * 8); xor64 m (lane_index i j) lane) = Ok m' /\
    lay4 m' (upd sts i (xin (nth i sts []) (8 * j + k) (firstn b d))).
Proof.
  intros H Hi Hj Hk Hk8 Hb Hd. unfold load_part. replace (b <=? 8) with true by (symmetry; apply Nat.leb_le; lia). replace (b <=? length d) with true by (symmetry; apply Nat.leb_le; lia). cbn [andb bind].
  unfold shl64. replace (k * 8 <? 64) with true by (symmetry; apply Nat.ltb_lt; lia). cbn [bind].
  destruct (lay_xor 4 100 lane_index idx_lt idx_inj m sts i j (N.shiftl (le_word (firstn b d)) (N.of_nat (k * 8)) mod 2 ^ 64)%N H Hi Hj) as (m' & E & L). exists m'. split; [exact E|].
  rewrite xin_word in L; [exact L|apply firstn_bytes; exact Hd|rewrite firstn_length; lia].
Qed.
Lemma tail_ok m sts i j b d : lay4 m sts -> i < 4 -> j < 25 -> b <= 8 -> b <= length d -> is_bytes d ->
  exists m', (do lane <- load_part d b; xor64 m (lane_index i j) lane) = Ok m' /\ lay4 m' (upd sts i (xin (nth i sts []) (8 * j) (firstn b d))).
Proof.
  intros H Hi Hj Hk Hb Hd. destruct (part_ok m sts i j 0 b d H Hi Hj ltac:(lia) ltac:(lia) Hb Hd) as (m' & E & L). exists m'. rewrite Nat.add_0_r in L. split; [|exact L]. rewrite <- E.
  unfold load_part. replace (b <=? 8) with true by (symmetry; apply Nat.leb_le; lia). replace (b <=? length d) with true by (symmetry; apply Nat.leb_le; lia). cbn [andb bind]. unfold shl64. cbn [Nat.mul Nat.ltb Nat.leb bind N.of_nat]. rewrite N.shiftl_0_r. rewrite N.mod_small; [reflexivity|].
  pose proof (le_word_lt (firstn b d) (firstn_bytes _ _ Hd)) as X. eapply N.lt_le_trans; [exact X|]. change (2 ^ 64)%N with (256 ^ 8)%N. apply N.pow_le_mono_r; [discriminate|]. rewrite firstn_length. lia.
Qed.
Lemma add_whole_ok i : i < 4 -> forall fuel m sts d n lp, lay4 m sts -> n < fuel -> 8 * lp + n <= 200 -> n <= length d -> is_bytes d ->
  exists m' q, 8 * q <= n /\ n < 8 * q + 8 /\ add_whole fuel m i d n lp = Ok (m', skipn (8 * q) d, n - 8 * q, lp + q) /\
    lay4 m' (upd sts i (xin (nth i sts []) (8 * lp) (firstn (8 * q) d))).
Proof.
  intros Hi. induction fuel as [|fuel IH]; intros m sts d n lp H Hf Hn Hl Hd; [lia|]. cbn [add_whole]. pose proof (lay4_four _ _ H) as L4. destruct (Nat.leb_spec 8 n) as [A|A].
  - destruct (lay_xor 4 100 lane_index idx_lt idx_inj m sts i lp (lane d 0) H Hi ltac:(lia)) as (m1 & E1 & H1).
    rewrite load64_ok by lia. cbn [bind]. rewrite E1. cbn [bind]. rewrite lane_le_bytes in H1 by (assumption || lia). change (slice d (8 * 0) 8) with (firstn 8 d) in H1.
    destruct (IH m1 _ (skipn 8 d) (n - 8) (lp + 1) H1 ltac:(lia) ltac:(lia) ltac:(rewrite skipn_length; lia) (skipn_bytes _ _ Hd)) as (m' & q & Q1 & Q2 & E & H').
    exists m', (S q). split; [lia|]. split; [lia|]. split.
    + rewrite E. f_equal. replace (8 * S q) with (8 + 8 * q) by lia. rewrite skip_skip. f_equal; [f_equal|]; lia.
    + rewrite nth_here, upd_again in H' by lia. match type of H' with lay4 _ (upd _ _ ?x) => match goal with |- lay4 _ (upd _ _ ?y) => replace y with x; [exact H'|] end end.
      replace (8 * S q) with (8 + 8 * q) by lia. rewrite <- firstn_firstn_skip, xin_app. f_equal. rewrite firstn_length. lia.
  - exists m, 0. split; [lia|]. split; [lia|]. change (8 * 0) with 0. rewrite firstn_O, xin_nil, upd_here by lia. cbn [skipn]. rewrite Nat.sub_0_r, Nat.add_0_r. split; [reflexivity|exact H].
Qed.
Lemma add_bytes1_ok m sts i d off n : lay4 m sts -> i < 4 -> off + N.to_nat n <= 200 -> N.to_nat n <= length d -> is_bytes d ->
  exists m', add_bytes1 m i d off n = Ok m' /\ lay4 m' (upd sts i (xin (nth i sts []) off (firstn (N.to_nat n) d))).
Proof.
  intros H Hi Hn Hl Hd. unfold add_bytes1. cbv zeta. set (k := N.to_nat n) in *. clearbody k. pose proof (Nat.div_mod off 8 ltac:(discriminate)) as E. pose proof (Nat.mod_upper_bound off 8 ltac:(discriminate)) as U. pose proof (lay4_four _ _ H) as L4.
  set (lp := off / 8) in *. set (ol := off mod 8) in *. clearbody lp ol. subst off.
  assert (G : forall m1 d1 n1 lp1 (st1 : bytes), lay4 m1 (upd sts i st1) -> 8 * lp1 + n1 <= 200 -> n1 <= length d1 -> is_bytes d1 ->
    exists m', (do (m, curData, sizeLeft, lanePosition) <- add_whole (S n1) m1 i d1 n1 lp1;
      if 0 <? sizeLeft then do lane <- load_part curData sizeLeft; xor64 m (lane_index i lanePosition) lane else Ok m) = Ok m' /\
      lay4 m' (upd sts i (xin st1 (8 * lp1) (firstn n1 d1)))).
  { intros m1 d1 n1 lp1 st1 H1 A1 A2 A3. destruct (add_whole_ok i Hi (S n1) m1 _ d1 n1 lp1 H1 ltac:(lia) A1 A2 A3) as (m2 & q & Q1 & Q2 & E2 & H2). rewrite E2. cbn [bind]. rewrite nth_here, upd_again in H2 by lia.
    destruct (Nat.ltb_spec 0 (n1 - 8 * q)) as [B|B].
    - destruct (tail_ok m2 _ i (lp1 + q) (n1 - 8 * q) (skipn (8 * q) d1) H2 Hi ltac:(lia) ltac:(lia) ltac:(rewrite skipn_length; lia) (skipn_bytes _ _ A3)) as (m' & E' & H'). exists m'. split; [exact E'|]. rewrite nth_here, upd_again in H' by lia.
      match type of H' with lay4 _ (upd _ _ ?x) => match goal with |- lay4 _ (upd _ _ ?y) => replace y with x; [exact H'|] end end.
      replace (firstn n1 d1) with (firstn (8 * q) d1 ++ firstn (n1 - 8 * q) (skipn (8 * q) d1)) by (rewrite firstn_firstn_skip; f_equal; lia). rewrite xin_app. f_equal. rewrite firstn_length. lia.
    - exists m2. split; [reflexivity|]. replace n1 with (8 * q) by lia. exact H2. }
  destruct (Nat.ltb_spec 0 k) as [A|A]; cbn [andb].
  - destruct (Nat.eqb_spec ol 0) as [->|No]; cbn [negb].
    + cbn [bind]. rewrite Nat.add_0_r. apply G; [rewrite upd_here by lia; exact H|lia|exact Hl|exact Hd].
    + set (b := if k <? 8 - ol then k else 8 - ol). assert (Hb : 0 < b /\ b <= k /\ ol + b <= 8 /\ (b < k -> ol + b = 8)) by (unfold b; destruct (Nat.ltb_spec k (8 - ol)); lia). clearbody b.
      destruct (part_ok m sts i lp ol b d H Hi ltac:(lia) ltac:(lia) U ltac:(lia) Hd) as (m1 & E1 & H1).
      destruct (G m1 (skipn b d) (k - b) (lp + 1) _ H1) as (m' & E' & H'); [|rewrite skipn_length; lia|apply skipn_bytes; exact Hd|].
      { destruct (Nat.eq_dec b k); lia. }
      exists m'. split.
      * apply bind_ok in E1. destruct E1 as (part & P1 & E1). apply bind_ok in E1. destruct E1 as (ln & P2 & P3). rewrite P1. cbn [bind]. rewrite P2. cbn [bind]. rewrite P3. cbn [bind]. exact E'.
      * match type of H' with lay4 _ (upd _ _ ?x) => match goal with |- lay4 _ (upd _ _ ?y) => replace y with x; [exact H'|] end end.
        destruct (Nat.eq_dec b k) as [->|Nb]; [rewrite Nat.sub_diag, firstn_O, xin_nil; reflexivity|].
        replace (firstn k d) with (firstn b d ++ firstn (k - b) (skipn b d)) by (rewrite firstn_firstn_skip; f_equal; lia). rewrite xin_app. f_equal. rewrite firstn_length. lia.
  - replace k with 0 in * by lia. cbn [bind]. destruct (add_whole_ok i Hi 1 m sts d 0 lp H ltac:(lia) ltac:(lia) ltac:(lia) Hd) as (m' & q & Q1 & _ & E' & H'). rewrite E'. cbn [bind]. cbn [Nat.sub Nat.ltb Nat.leb]. exists m'. split; [reflexivity|].
    replace (8 * q) with 0 in H' by lia. rewrite firstn_O, xin_nil in *. exact H'.
Qed.

(** *** extracting bytes *)
Lemma lay_read m sts i j k b : lay4 m sts -> i < 4 -> j < 25 -> k + b <= 8 -> read m (8 * lane_index i j + k) b = Ok (slice (nth i sts []) (8 * j + k) b).
Proof.
  intros (Lm & Bm & Ls & Bs & H) Hi Hj Hk. pose proof (idx_lt i j Hi Hj). rewrite read_ok by lia. f_equal. rewrite <- (slice_slice m (8 * lane_index i j) 8) by lia. rewrite H by assumption. apply slice_slice. lia.
Qed.
Lemma extract_whole_ok m sts i : lay4 m sts -> i < 4 -> forall fuel n lp, n < fuel -> 8 * lp + n <= 200 ->
  exists q, 8 * q <= n /\ n < 8 * q + 8 /\ extract_whole fuel m i n lp = Ok (slice (nth i sts []) (8 * lp) (8 * q), n - 8 * q, lp + q).
Proof.
  intros H Hi. pose proof H as (Lm & Bm & Ls & Bs & HS). destruct (Bs i Hi) as [L1 B1]. induction fuel as [|fuel IH]; intros n lp Hf Hn; [lia|]. cbn [extract_whole]. destruct (Nat.leb_spec 8 n) as [A|A].
  - rewrite (lay_load 4 100 lane_index idx_lt m sts i lp H Hi ltac:(lia)). cbn [bind]. destruct (IH (n - 8) (lp + 1) ltac:(lia) ltac:(lia)) as (q & Q1 & Q2 & E). exists (S q). split; [lia|]. split; [lia|]. rewrite E. cbn [bind].
    rewrite lane_le_bytes by (assumption || lia). replace (8 * (lp + 1)) with (8 * lp + 8) by lia. rewrite slice_app. f_equal. f_equal; [f_equal|]; [f_equal|..]; lia.
  - exists 0. split; [lia|]. split; [lia|]. change (8 * 0) with 0. rewrite Nat.sub_0_r, Nat.add_0_r. reflexivity.
Qed.
Lemma extract_bytes1_ok m sts i off n : lay4 m sts -> i < 4 -> off + N.to_nat n <= 200 -> extract_bytes1 m i off n = Ok (slice (nth i sts []) off (N.to_nat n)).
Proof.
  intros H Hi Hn. unfold extract_bytes1. cbv zeta. set (k := N.to_nat n) in *. clearbody k. pose proof (Nat.div_mod off 8 ltac:(discriminate)) as E. pose proof (Nat.mod_upper_bound off 8 ltac:(discriminate)) as U.
  set (lp := off / 8) in *. set (ol := off mod 8) in *. clearbody lp ol. subst off.
  assert (G : forall n1 lp1 o1, 8 * lp1 + n1 <= 200 ->
    (do (o2, sizeLeft, lanePosition) <- extract_whole (S n1) m i n1 lp1; do o3 <- (if 0 <? sizeLeft then read m (8 * lane_index i lanePosition) sizeLeft else Ok []); Ok (o1 ++ o2 ++ o3)) =
    Ok (o1 ++ slice (nth i sts []) (8 * lp1) n1)).
  { intros n1 lp1 o1 A1. destruct (extract_whole_ok m sts i H Hi (S n1) n1 lp1 ltac:(lia) A1) as (q & Q1 & Q2 & E2). rewrite E2. cbn [bind]. destruct (Nat.ltb_spec 0 (n1 - 8 * q)) as [B|B].
    - replace (8 * lane_index i (lp1 + q)) with (8 * lane_index i (lp1 + q) + 0) by lia. rewrite (lay_read m sts i (lp1 + q) 0 _ H Hi) by lia. cbn [bind]. replace (8 * (lp1 + q) + 0) with (8 * lp1 + 8 * q) by lia. rewrite slice_app. do 3 f_equal. lia.
    - cbn [bind]. rewrite app_nil_r. do 3 f_equal. lia. }
  destruct (Nat.ltb_spec 0 k) as [A|A]; cbn [andb].
  - destruct (Nat.eqb_spec ol 0) as [->|No]; cbn [negb].
    + cbn [bind]. rewrite G by lia. rewrite Nat.add_0_r. reflexivity.
    + set (b := if k <? 8 - ol then k else 8 - ol). assert (Hb : 0 < b /\ b <= k /\ ol + b <= 8 /\ (b < k -> ol + b = 8)) by (unfold b; destruct (Nat.ltb_spec k (8 - ol)); lia). clearbody b.
      rewrite (lay_read m sts i lp ol b H Hi) by lia. cbn [bind]. destruct (Nat.eq_dec b k) as [->|Nb].
      * rewrite Nat.sub_diag. cbn [extract_whole Nat.leb bind Nat.ltb]. rewrite !app_nil_r. reflexivity.
      * rewrite G by lia. f_equal. replace (8 * (lp + 1)) with (8 * lp + ol + b) by lia. rewrite slice_app. f_equal. lia.
  - replace k with 0 by lia. reflexivity.
Qed.

(** *** the permutation on memory *)
Lemma store64_spec m i v : is_bytes m -> 8 * i + 8 <= length m -> exists m', store64 m i v = Ok m' /\ length m' = length m /\ is_bytes m' /\
  forall q, 8 * q + 8 <= length m -> slice m' (8 * q) 8 = if q =? i then le_bytes 8 v else slice m (8 * q) 8.
Proof.
  intros Hm Hi. unfold store64. replace (8 * i + 8 <=? length m) with true by (symmetry; apply Nat.leb_le; exact Hi). eexists. split; [reflexivity|].
  assert (LL : length (firstn (8 * i) m ++ le_bytes 8 v ++ skipn (8 * i + 8) m) = length m) by (rewrite !app_length, firstn_length, skipn_length, le_bytes_length; lia).
  split; [exact LL|]. split.
  - unfold is_bytes. apply Forall_app. split; [apply firstn_bytes; exact Hm|]. apply Forall_app. split; [apply le_bytes_is_bytes|apply skipn_bytes; exact Hm].
  - intros q Hq. apply (nth_ext _ _ 0%N 0%N).
    + rewrite slice_length by (rewrite LL; exact Hq). destruct (q =? i); [rewrite le_bytes_length|rewrite slice_length by exact Hq]; reflexivity.
    + rewrite slice_length by (rewrite LL; exact Hq). intros t Ht. rewrite slice_nth by exact Ht. destruct (Nat.eqb_spec q i) as [->|Nq].
      * rewrite app_nth2 by (rewrite firstn_length; lia). rewrite firstn_length, app_nth1 by (rewrite le_bytes_length; lia). f_equal. lia.
      * rewrite slice_nth by exact Ht. destruct (Nat.ltb_spec q i) as [L|L].
        -- rewrite app_nth1 by (rewrite firstn_length; lia). apply nth_first. lia.
        -- rewrite app_nth2 by (rewrite firstn_length; lia). rewrite firstn_length, app_nth2 by (rewrite le_bytes_length; lia). rewrite le_bytes_length, nth_skip'. f_equal. lia.
Qed.
Lemma p_of_eq k v : k < 4 -> p_of k v = nth k [w0 v; w1 v; w2 v; w3 v] 0%N.
Proof. intros H. do 4 (destruct k as [|k]; [reflexivity|]). lia. Qed.
Lemma STORE256_spec m j v : is_bytes m -> length m = 800 -> j < 25 -> exists m', STORE256 m j v = Ok m' /\ length m' = 800 /\ is_bytes m' /\
  forall i j', i < 4 -> j' < 25 -> slice m' (8 * lane_index i j') 8 = if j' =? j then le_bytes 8 (p_of i v) else slice m (8 * lane_index i j') 8.
Proof.
  intros Hm Lm Hj. unfold STORE256.
  destruct (store64_spec m (4 * j) (w0 v) Hm ltac:(lia)) as (m1 & E1 & L1 & B1 & S1). rewrite E1. cbn [bind].
  destruct (store64_spec m1 (4 * j + 1) (w1 v) B1 ltac:(lia)) as (m2 & E2 & L2 & B2 & S2). rewrite E2. cbn [bind].
  destruct (store64_spec m2 (4 * j + 2) (w2 v) B2 ltac:(lia)) as (m3 & E3 & L3 & B3 & S3). rewrite E3. cbn [bind].
  destruct (store64_spec m3 (4 * j + 3) (w3 v) B3 ltac:(lia)) as (m4 & E4 & L4 & B4 & S4). rewrite E4.
  exists m4. split; [reflexivity|]. split; [lia|]. split; [exact B4|]. intros i j' Hi Hj'. pose proof (idx_lt i j' Hi Hj') as X. rewrite S4, S3, S2, S1 by lia. unfold lane_index in *. rewrite p_of_eq by exact Hi. destruct (Nat.eqb_spec j' j) as [->|Nj].
  - do 4 (destruct i as [|i]; [cbn [nth]; repeat match goal with |- context [?a =? ?b] => destruct (Nat.eqb_spec a b); try lia end; reflexivity|]). lia.
  - repeat match goal with |- context [?a =? ?b] => destruct (Nat.eqb_spec a b); try lia end. reflexivity.
Qed.
Definition vload (m : bytes) (j : nat) : V256 := V4 (lane m (4 * j)) (lane m (4 * j + 1)) (lane m (4 * j + 2)) (lane m (4 * j + 3)).
Lemma LOAD256_ok m j : length m = 800 -> j < 25 -> LOAD256 m j = Ok (vload m j).
Proof. intros Lm Hj. unfold LOAD256. rewrite !load64_ok by lia. reflexivity. Qed.
Lemma p_vload m i j : i < 4 -> p_of i (vload m j) = lane m (lane_index i j).
Proof. intros Hi. rewrite p_of_eq by exact Hi. unfold lane_index, vload. do 4 (destruct i as [|i]; [cbn [nth w0 w1 w2 w3]; f_equal; lia|]). lia. Qed.
Lemma LOAD_bind {B} m j (f : V256 -> res B) : length m = 800 -> j < 25 -> bind (LOAD256 m j) f = f (vload m j).
Proof. intros Lm Hj. rewrite LOAD256_ok by assumption. reflexivity. Qed.
Lemma copyFrom_spec m : length m = 800 -> exists A, copyFromState m = Ok A /\ forall i j, i < 4 -> j < 25 -> p_of i (nth j (vlist A) (V4 0 0 0 0)) = lane m (lane_index i j).
Proof.
  intros Lm. unfold copyFromState. do 25 (rewrite LOAD_bind by (exact Lm || lia)). eexists. split; [reflexivity|].
  intros i j Hi Hj. rewrite <- p_vload by exact Hi. f_equal. do 25 (destruct j as [|j]; [reflexivity|]). lia.
Qed.
Lemma store_list : forall (l : list V256) a m, is_bytes m -> length m = 800 -> a + length l <= 25 ->
  exists m', foldM (fun m p => STORE256 m (fst p) (snd p)) (combine (seq a (length l)) l) m = Ok m' /\ length m' = 800 /\ is_bytes m' /\
  forall i j, i < 4 -> j < 25 -> slice m' (8 * lane_index i j) 8 = if (a <=? j) && (j <? a + length l) then le_bytes 8 (p_of i (nth (j - a) l (V4 0 0 0 0))) else slice m (8 * lane_index i j) 8.
Proof.
  induction l as [|v l IH]; intros a m Hm Lm Ha; cbn [length seq combine foldM fst snd].
  - exists m. split; [reflexivity|]. split; [exact Lm|]. split; [exact Hm|]. intros i j Hi Hj. replace ((a <=? j) && (j <? a + 0)) with false; [reflexivity|]. symmetry. apply andb_false_iff. destruct (Nat.leb_spec a j); [right; apply Nat.ltb_ge; lia|left; reflexivity].
  - cbn [length] in Ha. destruct (STORE256_spec m a v Hm Lm ltac:(lia)) as (m1 & E1 & L1 & B1 & S1). rewrite E1. cbn [bind]. destruct (IH (S a) m1 B1 L1 ltac:(lia)) as (m' & E' & L' & B' & S'). exists m'. split; [exact E'|]. split; [exact L'|]. split; [exact B'|].
    intros i j Hi Hj. rewrite S' by assumption. rewrite S1 by assumption.
    destruct (Nat.leb_spec (S a) j), (Nat.leb_spec a j), (Nat.ltb_spec j (S a + length l)), (Nat.ltb_spec j (a + S (length l))), (Nat.eqb_spec j a); cbn [andb]; try lia; try reflexivity.
    + replace (j - a) with (S (j - S a)) by lia. reflexivity.
    + subst j. rewrite Nat.sub_diag. reflexivity.
Qed.
Lemma bind_id {A} (x : res A) : (do y <- x; Ok y) = x.
Proof. destruct x; reflexivity. Qed.
Lemma bind_same {A B} (x : res A) (f g : A -> res B) : (forall y, f y = g y) -> bind x f = bind x g.
Proof. intros H. destruct x; cbn [bind]; [apply H|reflexivity..]. Qed.
Lemma copyTo_fold m X : copyToState m X = foldM (fun m p => STORE256 m (fst p) (snd p)) (combine (seq 0 25) (vlist X)) m.
Proof.
  unfold copyToState, vlist. cbn [seq combine foldM fst snd].
  do 24 (apply bind_same; intros ?m). symmetry. apply bind_id.
Qed.
Definition aligned (P : place) : Prop := (at_states P mod 32 = 0 /\ at_rho8 P mod 32 = 0 /\ at_rho56 P mod 32 = 0)%N.
Lemma permute_all_ok P m sts : aligned P -> lay4 m sts -> exists m', permute_all P m = Ok m' /\ lay4 m' (map permute_24rounds sts).
Proof.
  intros (A1 & A2 & A3) (Lm & Bm & Ls & Bs & H). unfold permute_all, aligned32. rewrite A1, A2, A3. cbn [N.eqb andb]. change (8 * 100) with 800 in Lm.
  destruct (copyFrom_spec m Lm) as (A & E & S). rewrite E. cbn [bind].
  assert (HV : Forall vok (vlist A)).
  { apply Forall_forall. intros v Hv. apply (In_nth _ _ (V4 0 0 0 0)) in Hv. destruct Hv as (j & Hj & <-). change (length (vlist A)) with 25 in Hj.
    unfold vok. change (b64 (p_of 0 (nth j (vlist A) (V4 0 0 0 0))) /\ b64 (p_of 1 (nth j (vlist A) (V4 0 0 0 0))) /\ b64 (p_of 2 (nth j (vlist A) (V4 0 0 0 0))) /\ b64 (p_of 3 (nth j (vlist A) (V4 0 0 0 0)))).
    rewrite !S by lia. repeat split; apply lane_b64; exact Bm. }
  rewrite copyTo_fold. destruct (store_list (vlist (rounds24 A)) 0 m Bm Lm ltac:(cbn; lia)) as (m' & E' & L' & B' & S'). change (length (vlist (rounds24 A))) with 25 in *. exists m'. split; [exact E'|].
  split; [exact L'|]. split; [exact B'|]. split; [rewrite map_length; exact Ls|]. 
  assert (NM : forall i, i < 4 -> nth i (map permute_24rounds sts) [] = permute_24rounds (nth i sts [])).
  { intros i Hi. rewrite (nth_indep _ [] (permute_24rounds [])) by (rewrite map_length; lia). apply map_nth. }
  split; [intros i Hi; rewrite NM by exact Hi; split; [apply permute_length|apply permute_bytes]|].
  intros i j Hi Hj. rewrite NM by exact Hi. rewrite S' by assumption. replace ((0 <=? j) && (j <? 0 + 25)) with true by (symmetry; apply andb_true_iff; split; [reflexivity|apply Nat.ltb_lt; lia]). rewrite Nat.sub_0_r.
  unfold permute_24rounds. rewrite to_state_slice by exact Hj. f_equal.
  assert (CF : pj (p_of i) A = copy_from_state (nth i sts [])).
  { apply lanes_eq. rewrite copy_list. apply (nth_ext _ _ 0%N 0%N); [reflexivity|]. change (length (lanes_list (pj (p_of i) A))) with 25. intros t Ht. rewrite lanes_nth by exact Ht.
    transitivity (p_of i (nth t (vlist A) (V4 0 0 0 0))); [|rewrite S by assumption; unfold lane; rewrite H by assumption; reflexivity].
    rewrite <- (map_nth (p_of i)). change (lanes_list (pj (p_of i) A)) with (map (p_of i) (vlist A)). apply nth_indep. rewrite map_length. exact Ht. }
  rewrite <- CF, <- (proj1 (rounds_four i A HV)). change (lanes_list (pj (p_of i) (rounds24 A))) with (map (p_of i) (vlist (rounds24 A))).
  rewrite (nth_indep _ 0%N (p_of i (V4 0 0 0 0))) by (rewrite map_length; exact Hj). symmetry. apply map_nth.
Qed.
Lemma simd256_simulates P : aligned P -> simulates4 (simd256 P) 800 lay4 permute_24rounds.
Proof.
  intros HP. constructor; cbn [simd256 pl_init pl_add_byte pl_add_bytes pl_extract pl_permute].
  - apply lay4_four.
  - intros m L. exists (repeat 0%N 800). split; [unfold init_all; rewrite L; replace (800 <=? 800) with true by reflexivity; rewrite skipn_all2 by lia; rewrite app_nil_r; reflexivity|].
    assert (Z : forall i, i < 4 -> nth i (repeat (repeat 0%N 200) 4) [] = repeat 0%N 200) by (intros i Hi; do 4 (destruct i as [|i]; [reflexivity|]); lia).
    split; [apply repeat_length|]. split; [apply (is_bytes_zeros 800)|]. split; [reflexivity|]. split; [intros i Hi; rewrite Z by exact Hi; split; [apply repeat_length|apply zeros200]|].
    intros i j Hi Hj. rewrite Z by exact Hi. pose proof (idx_lt i j Hi Hj) as X. apply (nth_ext _ _ 0%N 0%N); [rewrite !slice_length by (rewrite repeat_length; lia); reflexivity|].
    rewrite slice_length by (rewrite repeat_length; lia). intros t Ht. rewrite !slice_nth by exact Ht. rewrite !nth_repeat. reflexivity.
  - intros m sts i b off st' H Hi HB E. apply add_byte_inv in E. destruct E as [H1 ->]. pose proof H as (_ & _ & _ & Bs & _). destruct (Bs i Hi) as [L1 _]. rewrite L1 in H1.
    pose proof (Nat.div_mod off 8 ltac:(discriminate)) as E. pose proof (Nat.mod_upper_bound off 8 ltac:(discriminate)) as U. assert (Q : off / 8 < 25) by (apply Nat.div_lt_upper_bound; lia).
    destruct (lay_byte 4 100 lane_index idx_lt idx_inj m sts i (off / 8) (off mod 8) b H Hi Q U HB) as (m' & E' & H'). exists m'. unfold add_byte1. replace (i * 8 + off / 8 * 4 * 8 + off mod 8) with (8 * lane_index i (off / 8) + off mod 8) by (unfold lane_index; lia).
    split; [exact E'|]. rewrite <- E in H'. exact H'.
  - intros m sts i d off len st' H Hi Hd E. apply add_bytes_inv in E. destruct E as (H1 & H2 & ->). pose proof H as (_ & _ & _ & Bs & _). destruct (Bs i Hi) as [L1 _]. apply add_bytes1_ok; try assumption. lia.
  - intros m sts i off len o H Hi _ E. apply extract_inv in E. destruct E as (H1 & ->). pose proof H as (_ & _ & _ & Bs & _). destruct (Bs i Hi) as [L1 _]. apply extract_bytes1_ok; try assumption. lia.
  - intros m sts H. apply permute_all_ok; assumption.
Qed.
