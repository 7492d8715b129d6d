(** keccak/opt64 below the sponge does what the byte-wise operations of SpongeModel do. *)
From Coq Require Import Arith NArith List Bool Lia.
From Verif Require Import Prelude SpongeModel SpongeFacts KeccakModel KeccakFacts KeccakBytes SnpMem SnpSponge SnpSim SnpSim4 SnpLayout Opt64Model.
Import ListNotations.

Lemma skipn_firstn_slice (d : bytes) k n : slice d k n = firstn n (skipn k d).
Proof. reflexivity. Qed.
Lemma firstn_slice (d : bytes) a b : firstn a d ++ slice d a b = firstn (a + b) d.
Proof. unfold slice. revert d. induction a; intros d; [reflexivity|]. destruct d; [cbn [skipn firstn app Nat.add]; destruct b; reflexivity|]. cbn [firstn skipn Nat.add app]. rewrite IHa. reflexivity. Qed.
Lemma slice_slice (st : bytes) a b c e : c + e <= b -> slice (slice st a b) c e = slice st (a + c) e.
Proof.
  intros H. apply (nth_ext _ _ 0%N 0%N).
  - unfold slice. rewrite !firstn_length, !skipn_length, firstn_length, skipn_length. lia.
  - intros n Hn. assert (n < e) by (unfold slice in Hn at 1; rewrite firstn_length in Hn; lia). rewrite !slice_nth by lia. f_equal. lia.
Qed.
Lemma slice_app (st : bytes) a b c : slice st a b ++ slice st (a + b) c = slice st a (b + c).
Proof.
  unfold slice. rewrite <- (firstn_slice (skipn a st) b c). unfold slice. f_equal. f_equal.
  clear. revert st. induction a; intros st; [reflexivity|]. destruct st; [cbn [Nat.add skipn]; destruct b; reflexivity|]. cbn [Nat.add skipn]. apply IHa.
Qed.

Lemma add_in_lane_ok m lp d off n : is_bytes m -> is_bytes d -> (n = 0 \/ 8 * lp + 8 <= length m) -> off + n <= 8 -> n <= length d ->
  add_bytes_in_lane m lp d off n = Ok (xin m (8 * lp + off) (firstn n d)).
Proof.
  intros Hm Hd Hl Ho Hn. unfold add_bytes_in_lane. destruct (Nat.eqb_spec n 0) as [->|N0]; [rewrite firstn_O, xin_nil; reflexivity|].
  destruct Hl as [?|Hl]; [contradiction|].
  assert (E : (if n =? 1 then get d 0 else load_part d n) = Ok (le_word (firstn n d))).
  { destruct (Nat.eqb_spec n 1) as [->|N1].
    - rewrite (get_ok d 0 0%N) by lia. destruct d; [cbn in Hn; lia|]. cbn [nth firstn le_word]. f_equal. lia.
    - unfold load_part. replace (n <=? 8) with true by (symmetry; apply Nat.leb_le; lia). replace (n <=? length d) with true by (symmetry; apply Nat.leb_le; lia). reflexivity. }
  rewrite E. cbn [bind]. unfold shl64. replace (off * 8 <? 64) with true by (symmetry; apply Nat.ltb_lt; lia). cbn [bind].
  rewrite xor64_xin by assumption. f_equal. apply xin_word; [apply firstn_bytes; exact Hd|]. rewrite firstn_length. lia.
Qed.
Lemma lane_le_bytes d i : is_bytes d -> 8 * i + 8 <= length d -> le_bytes 8 (lane d i) = slice d (8 * i) 8.
Proof. apply le_bytes_slice. Qed.
Lemma xor_lane_ok m d i : is_bytes m -> is_bytes d -> 8 * i + 8 <= length m -> 8 * i + 8 <= length d ->
  xor_lane d (xin m 0 (firstn (8 * i) d)) i = Ok (xin m 0 (firstn (8 * (i + 1)) d)).
Proof.
  intros Hm Hd Lm Ld. unfold xor_lane. rewrite load64_ok by exact Ld. cbn [bind]. rewrite xor64_xin; [|apply xin_bytes; [exact Hm|apply firstn_bytes; exact Hd]|rewrite xin_length; exact Lm].
  f_equal. rewrite lane_le_bytes by assumption. replace (8 * (i + 1)) with (8 * i + 8) by lia. rewrite <- firstn_slice. rewrite xin_app. f_equal. rewrite firstn_length. lia.
Qed.
Lemma add_lanes_fold m d i step : is_bytes m -> is_bytes d -> 8 * (i + step) <= length m -> 8 * (i + step) <= length d ->
  foldM (fun m k => xor_lane d m (i + k)) (seq 0 step) (xin m 0 (firstn (8 * i) d)) = Ok (xin m 0 (firstn (8 * (i + step)) d)).
Proof.
  intros Hm Hd Lm Ld. assert (G : forall s a, a + s = step -> foldM (fun m k => xor_lane d m (i + k)) (seq a s) (xin m 0 (firstn (8 * (i + a)) d)) = Ok (xin m 0 (firstn (8 * (i + step)) d))).
  { induction s as [|s IH]; intros a Ha; cbn [seq foldM]; [replace a with step by lia; reflexivity|]. 
    rewrite xor_lane_ok by (assumption || lia). cbn [bind]. replace (i + a + 1) with (i + S a) by lia. apply IH. lia. }
  specialize (G step 0 eq_refl). rewrite Nat.add_0_r in G. exact G.
Qed.
Lemma add_lanes_by_ok m d k step : is_bytes m -> is_bytes d -> 8 * k <= length m -> 8 * k <= length d -> 0 < step -> forall fuel i, i <= k -> k - i < fuel ->
  exists i', i <= i' /\ i' <= k /\ k < i' + step /\ add_lanes_by step fuel (xin m 0 (firstn (8 * i) d)) d i k = Ok (xin m 0 (firstn (8 * i') d), i').
Proof.
  intros Hm Hd Lm Ld Hs. induction fuel as [|fuel IH]; intros i Hi Hf; [lia|]. cbn [add_lanes_by]. destruct (Nat.leb_spec (i + step) k) as [A|A].
  - rewrite add_lanes_fold by (assumption || lia). cbn [bind]. destruct (IH (i + step) A ltac:(lia)) as (i' & H1 & H2 & H3 & H4). exists i'. repeat split; try assumption; lia.
  - exists i. repeat split; lia.
Qed.
Lemma add_lanes_ok m d k : is_bytes m -> is_bytes d -> 8 * k <= length m -> 8 * k <= length d -> add_lanes m d k = Ok (xin m 0 (firstn (8 * k) d)).
Proof.
  intros Hm Hd Lm Ld. unfold add_lanes.
  destruct (add_lanes_by_ok m d k 8 Hm Hd Lm Ld ltac:(lia) (S k) 0 ltac:(lia) ltac:(lia)) as (i1 & A1 & B1 & C1 & E1). change (8 * 0) with 0 in E1. rewrite firstn_O, xin_nil in E1. rewrite E1. cbn [bind].
  destruct (add_lanes_by_ok m d k 4 Hm Hd Lm Ld ltac:(lia) (S k) i1 ltac:(lia) ltac:(lia)) as (i2 & A2 & B2 & C2 & E2). rewrite E2. cbn [bind].
  destruct (add_lanes_by_ok m d k 2 Hm Hd Lm Ld ltac:(lia) (S k) i2 ltac:(lia) ltac:(lia)) as (i3 & A3 & B3 & C3 & E3). rewrite E3. cbn [bind].
  destruct (Nat.ltb_spec i3 k) as [L|L]; [|replace i3 with k by lia; reflexivity]. rewrite xor_lane_ok by (assumption || lia). do 2 f_equal. f_equal. lia.
Qed.
Lemma firstn_firstn_skip (d : bytes) a b : firstn a d ++ firstn b (skipn a d) = firstn (a + b) d.
Proof. apply firstn_slice. Qed.
Lemma relaned_add_ok : forall fuel m d n lp offl, is_bytes m -> is_bytes d -> length m = 200 -> n < fuel -> offl < 8 -> 8 * lp + offl + n <= 200 -> n <= length d ->
  relaned_add fuel m d n lp offl = Ok (xin m (8 * lp + offl) (firstn n d)).
Proof.
  induction fuel as [|fuel IH]; intros m d n lp offl Hm Hd Lm Hf Ho Hn Hl; [lia|]. cbn [relaned_add]. destruct (Nat.ltb_spec 0 n) as [A|A]; [|replace n with 0 by lia; rewrite firstn_O, xin_nil; reflexivity].
  cbv zeta. set (b := if n <? 8 - offl then n else 8 - offl). assert (Hb : 0 < b /\ b <= n /\ offl + b <= 8 /\ (b < n -> offl + b = 8)) by (unfold b; destruct (Nat.ltb_spec n (8 - offl)); lia). clearbody b.
  rewrite add_in_lane_ok by (try assumption; try lia; right; rewrite Lm; lia). cbn [bind].
  destruct (Nat.eq_dec b n) as [->|Nb].
  - rewrite Nat.sub_diag. destruct fuel as [|fuel]; [lia|]. reflexivity.
  - rewrite IH; try lia; [|apply xin_bytes; [exact Hm|apply firstn_bytes; exact Hd]|apply skipn_bytes; exact Hd|rewrite xin_length; exact Lm|rewrite skipn_length; lia].
    f_equal. replace (firstn n d) with (firstn b d ++ firstn (n - b) (skipn b d)) by (rewrite firstn_firstn_skip; f_equal; lia). rewrite xin_app. f_equal. rewrite firstn_length. lia.
Qed.
Lemma opt_add_bytes_ok m d off n : is_bytes m -> is_bytes d -> length m = 200 -> off + N.to_nat n <= 200 -> N.to_nat n <= length d ->
  opt_add_bytes m d off n = Ok (xin m off (firstn (N.to_nat n) d)).
Proof.
  intros Hm Hd Lm Hn Hl. unfold opt_add_bytes. cbv zeta. set (k := N.to_nat n) in *. clearbody k. pose proof (Nat.div_mod k 8 ltac:(discriminate)) as E. pose proof (Nat.mod_upper_bound k 8 ltac:(discriminate)) as U.
  destruct (Nat.eqb_spec off 0) as [->|No].
  - rewrite add_lanes_ok by (assumption || lia). cbn [bind].
    rewrite add_in_lane_ok; [|apply xin_bytes; [exact Hm|apply firstn_bytes; exact Hd]|apply skipn_bytes; exact Hd| |lia|rewrite skipn_length; lia].
    + f_equal. replace (firstn k d) with (firstn (8 * (k / 8)) d ++ firstn (k mod 8) (skipn (k / 8 * 8) d)) by (rewrite (Nat.mul_comm (k / 8)), firstn_firstn_skip; f_equal; lia).
      rewrite xin_app. f_equal. rewrite firstn_length. lia.
    + rewrite xin_length, Lm. lia.
  - pose proof (Nat.div_mod off 8 ltac:(discriminate)) as Eo. pose proof (Nat.mod_upper_bound off 8 ltac:(discriminate)) as Uo. rewrite relaned_add_ok by (assumption || lia). do 2 f_equal. lia.
Qed.
Lemma extract_in_lane_ok m lp off n : is_bytes m -> 8 * lp + 8 <= length m -> off + n <= 8 -> extract_bytes_in_lane m lp off n = Ok (slice m (8 * lp + off) n).
Proof.
  intros Hm Hl Hn. unfold extract_bytes_in_lane. rewrite load64_ok by exact Hl. cbn [bind]. rewrite lane_le_bytes by assumption. rewrite read_ok by (rewrite slice_length by exact Hl; exact Hn). rewrite slice_slice by exact Hn. reflexivity.
Qed.
Lemma relaned_extract_ok : forall fuel m n lp offl, is_bytes m -> length m = 200 -> n < fuel -> offl < 8 -> 8 * lp + offl + n <= 200 ->
  relaned_extract fuel m n lp offl = Ok (slice m (8 * lp + offl) n).
Proof.
  induction fuel as [|fuel IH]; intros m n lp offl Hm Lm Hf Ho Hn; [lia|]. cbn [relaned_extract]. destruct (Nat.ltb_spec 0 n) as [A|A]; [|replace n with 0 by lia; reflexivity].
  cbv zeta. set (b := if n <? 8 - offl then n else 8 - offl). assert (Hb : 0 < b /\ b <= n /\ offl + b <= 8 /\ (b < n -> offl + b = 8)) by (unfold b; destruct (Nat.ltb_spec n (8 - offl)); lia). clearbody b.
  rewrite extract_in_lane_ok by (try assumption; lia). cbn [bind].
  destruct (Nat.eq_dec b n) as [->|Nb].
  - rewrite Nat.sub_diag. destruct fuel as [|fuel]; [lia|]. cbn [relaned_extract Nat.ltb Nat.leb bind]. rewrite app_nil_r. reflexivity.
  - rewrite IH by (assumption || lia). cbn [bind]. f_equal. replace (8 * (lp + 1) + 0) with (8 * lp + offl + b) by lia. rewrite slice_app. f_equal. lia.
Qed.
Lemma opt_extract_ok m off n : is_bytes m -> length m = 200 -> off + N.to_nat n <= 200 -> (off = 0 -> N.to_nat n < 200) -> opt_extract m off n = Ok (slice m off (N.to_nat n)).
Proof.
  intros Hm Lm Hn H0. unfold opt_extract. cbv zeta. set (k := N.to_nat n) in *. clearbody k. pose proof (Nat.div_mod k 8 ltac:(discriminate)) as E. pose proof (Nat.mod_upper_bound k 8 ltac:(discriminate)) as U.
  destruct (Nat.eqb_spec off 0) as [->|No].
  - specialize (H0 eq_refl). unfold extract_lanes. rewrite read_ok by lia. cbn [bind]. rewrite extract_in_lane_ok by (try assumption; lia). cbn [bind]. f_equal.
    replace (8 * (k / 8) + 0) with (0 + k / 8 * 8) by lia. rewrite slice_app. f_equal. lia.
  - pose proof (Nat.div_mod off 8 ltac:(discriminate)) as Eo. pose proof (Nat.mod_upper_bound off 8 ltac:(discriminate)) as Uo. rewrite relaned_extract_ok by (assumption || lia). do 2 f_equal. lia.
Qed.

(** *** the fast loop *)
Lemma lane_of_xin_in st d i : is_bytes st -> is_bytes d -> length st = 200 -> 8 * i + 8 <= length d -> i < 25 -> forall k, i < k -> 8 * k <= length d -> lane (xin st 0 (firstn (8 * k) d)) i = N.lxor (lane st i) (lane d i).
Proof.
  intros Hs Hd Ls Ld Hi k Hk Hkd. assert (X : slice (xin st 0 (firstn (8 * k) d)) (8 * i) 8 = le_bytes 8 (N.lxor (lane st i) (lane d i))).
  { rewrite le_bytes_lxor. rewrite !lane_le_bytes by (assumption || lia). apply (nth_ext _ _ 0%N 0%N); [rewrite xorl_length, !slice_length by (rewrite ?xin_length; lia); lia|].
    rewrite slice_length by (rewrite xin_length; lia). intros t Ht. rewrite slice_nth, xin_nth by lia. rewrite xorl_nth by (rewrite slice_length; lia). rewrite !slice_nth by exact Ht.
    cbn [Nat.leb andb]. replace (8 * i + t <? 0 + length (firstn (8 * k) d)) with true by (symmetry; apply Nat.ltb_lt; rewrite firstn_length; lia). rewrite Nat.sub_0_r, nth_first by lia. reflexivity. }
  unfold lane at 1. rewrite X. apply le_word_bytes. change (256 ^ N.of_nat 8)%N with (2 ^ 64)%N. apply lxor_lt_pow2; apply lane_b64; assumption.
Qed.
Lemma lane_of_xin_out st d i k : length st = 200 -> i < 25 -> k <= i -> lane (xin st 0 (firstn (8 * k) d)) i = lane st i.
Proof.
  intros Ls Hi Hk. unfold lane. f_equal. apply (nth_ext _ _ 0%N 0%N); [rewrite !slice_length by (rewrite ?xin_length; lia); reflexivity|].
  rewrite slice_length by (rewrite xin_length; lia). intros t Ht. rewrite !slice_nth by exact Ht. rewrite xin_nth by lia.
  replace (8 * i + t <? 0 + length (firstn (8 * k) d)) with false by (symmetry; apply Nat.ltb_ge; rewrite firstn_length; lia). rewrite andb_false_r. reflexivity.
Qed.
Lemma add_input_pairs k : k <= 25 -> add_input k = map (fun i => (i, i)) (seq 0 k).
Proof. intros H. do 26 (destruct k as [|k]; [reflexivity|]). lia. Qed.
Lemma list_lanes_list l : length l = 25 -> lanes_list (list_lanes l) = l.
Proof. intros H. do 25 (destruct l as [|? l]; [discriminate|]). destruct l; [reflexivity|discriminate]. Qed.
Lemma lanes_list_lanes A : list_lanes (lanes_list A) = A.
Proof. destruct A. reflexivity. Qed.
Lemma add_input_fold st d : is_bytes st -> is_bytes d -> length st = 200 -> forall s a k, a + s = k -> k <= 25 -> 8 * k <= length d ->
  foldM (fun l p => do a <- get l (fst p); do b <- load64 d (snd p); set l (fst p) (N.lxor a b)) (map (fun i => (i, i)) (seq a s))
    (map (lane (xin st 0 (firstn (8 * a) d))) (seq 0 25)) = Ok (map (lane (xin st 0 (firstn (8 * k) d))) (seq 0 25)).
Proof.
  intros Hs Hd Ls. induction s as [|s IH]; intros a k Ha Hk Hl; [replace k with a by lia; reflexivity|]. change (seq a (S s)) with (a :: seq (S a) s). cbn [map foldM fst snd].
  rewrite (get_ok _ a (lane (xin st 0 (firstn (8 * a) d)) 0)) by (rewrite map_length, seq_length; lia). rewrite map_nth, seq_nth by lia. cbn [bind Nat.add]. rewrite load64_ok by lia. cbn [bind].
  unfold set. rewrite map_length, seq_length. replace (a <? 25) with true by (symmetry; apply Nat.ltb_lt; lia). cbn [bind].
  rewrite <- (IH (S a) k) by lia. f_equal. apply (nth_ext _ _ 0%N 0%N); [rewrite upd_length, !map_length; reflexivity|]. rewrite upd_length, map_length, seq_length. intros j Hj.
  rewrite nth_upd. rewrite map_length, seq_length. replace (j <? 25) with true by (symmetry; apply Nat.ltb_lt; lia). rewrite andb_true_r.
  assert (N : forall m, nth j (map (lane m) (seq 0 25)) 0%N = lane m j) by (intros m; rewrite (nth_indep _ 0%N (lane m 0)) by (rewrite map_length, seq_length; lia); rewrite map_nth, seq_nth by lia; reflexivity). rewrite !N.
  destruct (Nat.eqb_spec j a) as [->|Nj].
  - rewrite (lane_of_xin_out st d a a) by lia. symmetry. apply lane_of_xin_in; (assumption || lia).
  - destruct (Nat.ltb_spec j a) as [L|L].
    + rewrite !lane_of_xin_in by (assumption || lia). reflexivity.
    + rewrite !lane_of_xin_out by lia. reflexivity.
Qed.
Lemma copy_list st : lanes_list (copy_from_state st) = map (lane st) (seq 0 25).
Proof. reflexivity. Qed.
Lemma copy_from_list st : copy_from_state st = list_lanes (map (lane st) (seq 0 25)).
Proof. reflexivity. Qed.
Lemma lanes_eq A B : lanes_list A = lanes_list B -> A = B.
Proof. intros H. rewrite <- (lanes_list_lanes A), H. apply lanes_list_lanes. Qed.
Lemma nth_concat8 (l : list N) k : k < 8 * length l -> nth k (concat (map (le_bytes 8) l)) 0%N = nth (k mod 8) (le_bytes 8 (nth (k / 8) l 0%N)) 0%N.
Proof.
  intros H. pose proof (Nat.div_mod k 8 ltac:(discriminate)) as E. pose proof (Nat.mod_upper_bound k 8 ltac:(discriminate)) as U. rewrite E at 1.
  apply (nth_chunks (le_bytes 8) 8 0%N 0%N); [apply Forall_forall; intros; apply le_bytes_length|exact U|apply Nat.div_lt_upper_bound; lia].
Qed.
Lemma to_state_slice A j : j < 25 -> slice (copy_to_state A) (8 * j) 8 = le_bytes 8 (nth j (lanes_list A) 0%N).
Proof.
  intros Hj. apply (nth_ext _ _ 0%N 0%N); [rewrite slice_length, le_bytes_length by (rewrite to_length; lia); reflexivity|]. rewrite slice_length by (rewrite to_length; lia). intros t Ht.
  rewrite slice_nth by exact Ht. refine (eq_trans (nth_concat8 (lanes_list A) (8 * j + t) _) _); [change (length (lanes_list A)) with 25; lia|].
  replace ((8 * j + t) mod 8) with t by (rewrite Nat.add_comm, Nat.mul_comm, Nat.mod_add, Nat.mod_small by lia; reflexivity). replace ((8 * j + t) / 8) with j; [reflexivity|]. symmetry.
  rewrite Nat.mul_comm, Nat.div_add_l, Nat.div_small by lia. lia.
Qed.
Lemma from_to A : Forall b64 (lanes_list A) -> copy_from_state (copy_to_state A) = A.
Proof.
  intros F. apply lanes_eq. rewrite copy_list. apply (nth_ext _ _ 0%N 0%N); [rewrite map_length, seq_length; reflexivity|]. rewrite map_length, seq_length. intros j Hj.
  rewrite (nth_indep _ 0%N (lane (copy_to_state A) 0)) by (rewrite map_length, seq_length; lia). rewrite map_nth, seq_nth by lia. cbn [Nat.add]. unfold lane. rewrite to_state_slice by exact Hj. apply le_word_bytes.
  rewrite Forall_forall in F. apply F. apply nth_In. exact Hj.
Qed.
Lemma state_ext (a b : bytes) : length a = 200 -> length b = 200 -> (forall j, j < 25 -> slice a (8 * j) 8 = slice b (8 * j) 8) -> a = b.
Proof.
  intros La Lb H. apply (nth_ext _ _ 0%N 0%N); [lia|]. intros k Hk. pose proof (Nat.div_mod k 8 ltac:(discriminate)) as E. pose proof (Nat.mod_upper_bound k 8 ltac:(discriminate)) as U.
  rewrite E. rewrite <- !(slice_nth _ _ 8) by exact U. rewrite H; [reflexivity|]. apply Nat.div_lt_upper_bound; lia.
Qed.
Lemma lanes_nth st j : j < 25 -> nth j (map (lane st) (seq 0 25)) 0%N = lane st j.
Proof. intros Hj. rewrite (nth_indep _ 0%N (lane st 0)) by (rewrite map_length, seq_length; lia). rewrite map_nth, seq_nth by lia. reflexivity. Qed.
Lemma to_from st : is_bytes st -> length st = 200 -> copy_to_state (copy_from_state st) = st.
Proof.
  intros H L. apply state_ext; [apply to_length|exact L|]. intros j Hj. rewrite to_state_slice by exact Hj. rewrite copy_list. rewrite lanes_nth by exact Hj. apply lane_le_bytes; [exact H|lia].
Qed.
Lemma from_b64 st : is_bytes st -> Forall b64 (lanes_list (copy_from_state st)).
Proof. intros H. rewrite copy_list. apply Forall_forall. intros a Ha. apply in_map_iff in Ha. destruct Ha as (i & <- & _). apply lane_b64. exact H. Qed.
Lemma rounds_copy st : is_bytes st -> length st = 200 -> rounds24 (copy_from_state st) = copy_from_state (permute_24rounds st).
Proof. intros H L. unfold permute_24rounds. symmetry. apply from_to. apply (rounds24_rep _ _ (from_rep st H L)). Qed.
Lemma add_bytes_inv st d off len st' : add_bytes st d off len = Ok st' -> off + N.to_nat len <= length st /\ N.to_nat len <= length d /\ st' = xin st off (firstn (N.to_nat len) d).
Proof.
  unfold add_bytes. destruct (N.leb_spec (N.of_nat off + len) (N.of_nat (length st))) as [A|A]; [|discriminate]. destruct (N.leb_spec len (N.of_nat (length d))) as [B|B]; [|discriminate]. cbn [andb]. intros E. inversion E; subst. repeat split; lia.
Qed.
Lemma opt_fast_ok k (Hk : k <= 25) : forall fuel st d st' d', is_bytes st -> is_bytes d -> length st = 200 -> absorb_blocks permute_24rounds (8 * k) fuel st d = Ok (st', d') ->
  opt_fast_loop fuel (copy_from_state st) k d = Ok (copy_from_state st', d') /\ is_bytes st' /\ length st' = 200 /\ exists j, j <= length d /\ d' = skipn j d.
Proof.
  induction fuel as [|fuel IH]; intros st d st' d' Hs Hd Ls E; [discriminate|]. cbn [absorb_blocks opt_fast_loop] in *. rewrite (Nat.mul_comm k 8).
  destruct (Nat.leb_spec (8 * k) (length d)) as [A|A]; [|inversion E; subst; repeat split; try assumption; exists 0; split; [lia|reflexivity]].
  apply bind_ok in E. destruct E as (st1 & E1 & E). apply add_bytes_inv in E1. destruct E1 as (_ & _ & ->). rewrite Nat2N.id in E.
  rewrite add_input_pairs by exact Hk. rewrite copy_list.
  pose proof (add_input_fold st d Hs Hd Ls k 0 k eq_refl Hk A) as X. change (8 * 0) with 0 in X. rewrite firstn_O, xin_nil in X. rewrite X. cbn [bind]. clear X. rewrite <- copy_from_list.
  assert (B1 : is_bytes (xin st 0 (firstn (8 * k) d))) by (apply xin_bytes; [exact Hs|apply firstn_bytes; exact Hd]).
  rewrite rounds_copy by (rewrite ?xin_length; assumption).
  destruct (IH _ _ _ _ (permute_bytes _) (skipn_bytes (8 * k) d Hd) (permute_length _) E) as (F1 & F2 & F3 & j & Hj & F4). repeat split; try assumption.
  exists (8 * k + j). rewrite skipn_length in Hj. split; [lia|]. rewrite F4. clear. revert d. generalize (8 * k). intros a. induction a; intros d; [reflexivity|]. destruct d; [destruct j; reflexivity|]. cbn [skipn Nat.add]. apply IHa.
Qed.

(** *** the simulations *)
Definition same (m st : bytes) : Prop := m = st /\ is_bytes st /\ length st = 200.
Lemma add_byte_inv st b off st' : add_byte st b off = Ok st' -> off < length st /\ st' = xin st off [b].
Proof. unfold add_byte. destruct (Nat.ltb_spec off (length st)) as [A|A]; [|discriminate]. intros E. inversion E; subst. auto. Qed.
Lemma extract_inv st off len o : extract_bytes st off len = Ok o -> off + N.to_nat len <= length st /\ o = slice st off (N.to_nat len).
Proof. unfold extract_bytes. destruct (N.leb_spec (N.of_nat off + len) (N.of_nat (length st))) as [A|A]; [|discriminate]. intros E. inversion E; subst. split; [lia|reflexivity]. Qed.
Lemma one_byte b : is_byte b -> is_bytes [b].
Proof. intros H. constructor; [exact H|constructor]. Qed.
Lemma zeros200 : is_bytes (repeat 0%N 200) /\ length (repeat 0%N 200) = 200.
Proof. split; [apply (is_bytes_zeros 200)|apply repeat_length]. Qed.
Lemma opt_init_ok m : length m = 200 -> opt_init m = Ok (repeat 0%N 200).
Proof. intros H. unfold opt_init. rewrite H. replace (200 <=? 200) with true by reflexivity. rewrite skipn_all2 by lia. rewrite app_nil_r. reflexivity. Qed.
Lemma opt_permute_ok m : length m = 200 -> opt_permute m = Ok (permute_24rounds m).
Proof. intros H. unfold opt_permute. rewrite H. reflexivity. Qed.
Lemma opt64_simulates : simulates opt64 200 same permute_24rounds.
Proof.
  constructor; cbn [opt64 snp_init snp_add_byte snp_add_bytes snp_extract snp_permute snp_fast].
  - intros m H. exists (repeat 0%N 200). split; [apply opt_init_ok; exact H|]. split; [reflexivity|]. apply zeros200.
  - intros m st b off st' (-> & Hb & L) HB E. apply add_byte_inv in E. destruct E as [H1 ->]. exists (xin st off [b]). split; [apply xor8_xin; exact H1|]. split; [reflexivity|]. split; [apply xin_bytes; [exact Hb|apply one_byte; exact HB]|rewrite xin_length; exact L].
  - intros m st d off len st' (-> & Hb & L) Hd E. apply add_bytes_inv in E. destruct E as (H1 & H2 & ->). eexists. split; [apply opt_add_bytes_ok; (assumption || lia)|]. split; [reflexivity|]. split; [apply xin_bytes; [exact Hb|apply firstn_bytes; exact Hd]|rewrite xin_length; exact L].
  - intros m st off len o (-> & Hb & L) H0 E. apply extract_inv in E. destruct E as (H1 & ->). apply opt_extract_ok; try assumption; [lia|]. intros Z. specialize (H0 Z). lia.
  - intros m st (-> & Hb & L). eexists. split; [apply opt_permute_ok; exact L|]. split; [reflexivity|]. split; [apply permute_bytes|apply permute_length].
  - intros fuel m st lanes d st' d' (-> & Hb & L) Hd _ HL E. destruct (opt_fast_ok lanes ltac:(lia) _ _ _ _ _ Hb Hd L E) as (F1 & F2 & F3 & j & Hj & F4).
    exists st', (length d - length d'). unfold opt_fast. rewrite L. rewrite Nat.eqb_refl. rewrite F1. cbn [bind]. rewrite to_from by assumption. split; [reflexivity|]. split; [repeat split; assumption|]. rewrite F4, skipn_length. f_equal. lia.
Qed.

(** *** four states one after the other *)
Definition good (st : bytes) : Prop := length st = 200.
Definition same4 (m : bytes) (sts : list bytes) : Prop := m = concat sts /\ length sts = 4 /\ Forall good sts /\ Forall is_bytes sts.
Lemma concat_len sts : Forall good sts -> length (concat sts) = 200 * length sts.
Proof. induction 1 as [|st sts H _ IH]; [reflexivity|]. unfold good in H. cbn [concat length]. rewrite app_length, H, IH. lia. Qed.
Lemma concat_split sts i : Forall good sts -> i < length sts ->
  firstn (200 * i) (concat sts) = concat (firstn i sts) /\ skipn (200 * i) (concat sts) = concat (skipn i sts).
Proof.
  intros F. revert i. induction F as [|st sts H F IH]; intros i Hi; unfold good in *; [cbn in Hi; lia|]. destruct i as [|i]; [split; reflexivity|]. destruct (Nat.eq_dec i (length sts)) as [->|Ni]; [cbn in Hi; lia|].
  cbn [length] in Hi. destruct (IH i ltac:(lia)) as [I1 I2]. cbn [concat firstn skipn]. replace (200 * S i) with (length st + 200 * i) by (rewrite H; lia). rewrite firstn_app_2, I1. split; [reflexivity|].
  rewrite skipn_app. rewrite skipn_all2 by lia. replace (length st + 200 * i - length st) with (200 * i) by lia. exact I2.
Qed.
Lemma skipn_nth_cons (sts : list bytes) i : i < length sts -> skipn i sts = nth i sts [] :: skipn (S i) sts.
Proof. revert i. induction sts as [|st sts IH]; intros i Hi; [cbn in Hi; lia|]. destruct i as [|i]; [reflexivity|]. cbn [skipn nth]. apply IH. cbn in Hi. lia. Qed.
Lemma upd_split (sts : list bytes) i st : i < length sts -> upd sts i st = firstn i sts ++ st :: skipn (S i) sts.
Proof. revert i. induction sts as [|s sts IH]; intros i Hi; [cbn in Hi; lia|]. destruct i as [|i]; [reflexivity|]. cbn [upd firstn app]. f_equal. apply IH. cbn in Hi. lia. Qed.
Lemma good_nth sts i : Forall good sts -> i < length sts -> good (nth i sts []).
Proof. intros F H. rewrite Forall_forall in F. apply F. apply nth_In. exact H. Qed.
Lemma good_upd sts i st : Forall good sts -> good st -> Forall good (upd sts i st).
Proof. intros F G. revert i. induction F as [|s sts Hs F IH]; intros i; [destruct i; constructor|]. destruct i; cbn [upd]; constructor; auto. Qed.
Lemma read_state sts i : Forall good sts -> i < length sts -> read (concat sts) (200 * i) 200 = Ok (nth i sts []).
Proof.
  intros F H. rewrite read_ok by (rewrite concat_len by exact F; lia). f_equal. unfold slice. rewrite (proj2 (concat_split sts i F H)). rewrite skipn_nth_cons by exact H. cbn [concat]. rewrite firstn_app.
  pose proof (good_nth sts i F H) as L. unfold good in L. rewrite L, Nat.sub_diag, firstn_O, app_nil_r. apply firstn_all2. lia.
Qed.
Lemma with_state_ok sts i g st' : Forall good sts -> i < length sts -> g (nth i sts []) = Ok st' -> length st' = 200 -> with_state (concat sts) i g = Ok (concat (upd sts i st')).
Proof.
  intros F H E L. unfold with_state. rewrite read_state by assumption. cbn [bind]. rewrite E. cbn [bind]. rewrite L, Nat.eqb_refl. f_equal. rewrite (proj1 (concat_split sts i F H)). rewrite upd_split by exact H. rewrite concat_app. cbn [concat]. do 2 f_equal.
  pose proof (good_nth sts i F H) as L'. unfold good in L'. transitivity (skipn 200 (skipn (200 * i) (concat sts))).
  - clear. generalize (concat sts) as l. generalize (200 * i) as a. induction a; intros l; [reflexivity|]. destruct l; [cbn [Nat.add]; rewrite !skipn_nil; reflexivity|]. cbn [skipn Nat.add]. apply IHa.
  - rewrite (proj2 (concat_split sts i F H)), skipn_nth_cons by exact H. cbn [concat]. rewrite skipn_app, L', Nat.sub_diag. rewrite skipn_all2 by lia. reflexivity.
Qed.
Lemma over_all g (h : bytes -> bytes) sts : length sts = 4 -> Forall good sts -> (forall st, good st -> g st = Ok (h st) /\ good (h st)) ->
  foldM (fun m i => with_state m i g) (seq 0 4) (concat sts) = Ok (concat (map h sts)).
Proof.
  intros L F H. destruct (four_cases sts L) as (a & b & c & d & ->). inversion F as [|? ? Ga F1]; subst. inversion F1 as [|? ? Gb F2]; subst. inversion F2 as [|? ? Gc F3]; subst. inversion F3 as [|? ? Gd _]; subst.
  destruct (H a Ga) as [Ea Ha], (H b Gb) as [Eb Hb], (H c Gc) as [Ec Hc], (H d Gd) as [Ed Hd]. cbn [seq foldM].
  rewrite (with_state_ok [a; b; c; d] 0 g (h a)); [|exact F|cbn; lia|exact Ea|exact Ha]. cbn [bind upd].
  rewrite (with_state_ok [h a; b; c; d] 1 g (h b)); [|repeat (constructor; try assumption)|cbn; lia|exact Eb|exact Hb]. cbn [bind upd].
  rewrite (with_state_ok [h a; h b; c; d] 2 g (h c)); [|repeat (constructor; try assumption)|cbn; lia|exact Ec|exact Hc]. cbn [bind upd].
  rewrite (with_state_ok [h a; h b; h c; d] 3 g (h d)); [|repeat (constructor; try assumption)|cbn; lia|exact Ed|exact Hd]. reflexivity.
Qed.
Lemma cut4 (m : bytes) : length m = 800 -> exists sts, m = concat sts /\ length sts = 4 /\ Forall good sts.
Proof.
  intros L. exists [slice m 0 200; slice m 200 200; slice m 400 200; slice m 600 200]. split; [|split; [reflexivity|]].
  - cbn [concat]. rewrite app_nil_r. change 600 with (400 + 200). rewrite slice_app. change 400 with (200 + 200) at 1. rewrite slice_app. change 200 with (0 + 200) at 3. rewrite slice_app. unfold slice. cbn [skipn]. symmetry. apply firstn_all2. rewrite L. apply Nat.le_refl.
  - repeat (constructor; [apply slice_length; rewrite L; lia|]). constructor.
Qed.
Lemma bytes_upd sts i st : Forall is_bytes sts -> is_bytes st -> Forall is_bytes (upd sts i st).
Proof. intros F G. revert i. induction F as [|s sts Hs F IH]; intros i; [destruct i; constructor|]. destruct i; cbn [upd]; constructor; auto. Qed.
Lemma bytes_nth sts i : Forall is_bytes sts -> i < length sts -> is_bytes (nth i sts []).
Proof. intros F H. rewrite Forall_forall in F. apply F. apply nth_In. exact H. Qed.
Lemma opt64x4_simulates : simulates4 opt64x4 800 same4 permute_24rounds.
Proof.
  constructor; cbn [opt64x4 pl_init pl_add_byte pl_add_bytes pl_extract pl_permute].
  - intros m sts H. apply H.
  - intros m L. destruct (cut4 m L) as (sts & -> & Ls & F). eexists. split.
    + unfold opt4_init. apply (over_all opt_init (fun _ => repeat 0%N 200) sts Ls F). intros st Hs. split; [apply opt_init_ok; exact Hs|apply repeat_length].
    + destruct (four_cases sts Ls) as (a & b & c & d & ->). split; [reflexivity|]. split; [reflexivity|]. split; apply Forall_forall; intros x Hx; apply repeat_spec in Hx; subst x; [apply repeat_length|apply zeros200].
  - intros m sts i b off st' (-> & Ls & F & B) Hi HB E. rewrite <- Ls in Hi. apply add_byte_inv in E. destruct E as [H1 ->]. eexists. split; [apply with_state_ok; [exact F|exact Hi|apply xor8_xin; exact H1|rewrite xin_length; apply (good_nth sts i F Hi)]|].
    split; [reflexivity|]. split; [rewrite upd_length; exact Ls|]. split; [apply good_upd; [exact F|unfold good; rewrite xin_length; apply (good_nth sts i F Hi)]|apply bytes_upd; [exact B|apply xin_bytes; [apply bytes_nth; assumption|apply one_byte; exact HB]]].
  - intros m sts i d off len st' (-> & Ls & F & B) Hi Hd E. rewrite <- Ls in Hi. apply add_bytes_inv in E. destruct E as (H1 & H2 & ->). pose proof (good_nth sts i F Hi) as G. unfold good in G. eexists.
    split; [apply with_state_ok; [exact F|exact Hi|apply opt_add_bytes_ok; try assumption; [apply bytes_nth; assumption|lia]|rewrite xin_length; exact G]|].
    split; [reflexivity|]. split; [rewrite upd_length; exact Ls|]. split; [apply good_upd; [exact F|unfold good; rewrite xin_length; exact G]|apply bytes_upd; [exact B|apply xin_bytes; [apply bytes_nth; assumption|apply firstn_bytes; exact Hd]]].
  - intros m sts i off len o (-> & Ls & F & B) Hi H0 E. rewrite <- Ls in Hi. apply extract_inv in E. destruct E as (H1 & ->). pose proof (good_nth sts i F Hi) as G. unfold good in G. unfold opt4_extract. rewrite read_state by assumption. cbn [bind].
    apply opt_extract_ok; [apply bytes_nth; assumption|exact G|lia|]. intros Z. specialize (H0 Z). lia.
  - intros m sts (-> & Ls & F & B). eexists. split; [apply (over_all opt_permute permute_24rounds sts Ls F); intros st Hs; split; [apply opt_permute_ok; exact Hs|apply permute_length]|].
    split; [reflexivity|]. split; [rewrite map_length; exact Ls|]. split; apply Forall_forall; intros x Hx; apply in_map_iff in Hx; destruct Hx as (y & <- & _); [apply permute_length|apply permute_bytes].
Qed.
