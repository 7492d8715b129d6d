(** keccak/opt64: overwriting, extracting and adding, rounds *)
From Coq Require Import Arith NArith List Bool Lia.
From Verif Require Import Prelude SpongeModel SpongeFacts KeccakSpec KeccakModel KeccakFacts KeccakBytes SnpMem SnpLayout SnpSim Opt64Model Opt64Facts StateSpec PutFacts Opt64More.
Import ListNotations.

Lemma write_at_ok m k d : k + length d <= length m -> write_at m k d = Ok (put m k d).
Proof. intros H. unfold write_at. replace (k + length d <=? length m) with true by (symmetry; apply Nat.leb_le; exact H). reflexivity. Qed.
Lemma read0 (d : bytes) n : n <= length d -> read d 0 n = Ok (firstn n d).
Proof. intros H. unfold read. cbn [Nat.add]. replace (n <=? length d) with true by (symmetry; apply Nat.leb_le; exact H). reflexivity. Qed.
Lemma read_ok (d : bytes) k n : k + n <= length d -> read d k n = Ok (slice d k n).
Proof. intros H. unfold read. replace (k + n <=? length d) with true by (symmetry; apply Nat.leb_le; exact H). reflexivity. Qed.
Lemma over_in_lane_ok m lp d off n : 8 * lp + off + n <= length m -> n <= length d -> overwrite_bytes_in_lane m lp d off n = Ok (put m (8 * lp + off) (firstn n d)).
Proof. intros H L. unfold overwrite_bytes_in_lane. rewrite read0 by exact L. cbn [bind]. replace (lp * 8) with (8 * lp) by lia. apply write_at_ok. rewrite firstn_length. lia. Qed.
Lemma relaned_over_ok : forall fuel m d n lp offl, length m = 200 -> n < fuel -> offl < 8 -> 8 * lp + offl + n <= 200 -> n <= length d ->
  relaned_overwrite fuel m d n lp offl = Ok (put m (8 * lp + offl) (firstn n d)).
Proof.
  induction fuel as [|fuel IH]; intros m d n lp offl Lm Hf Ho Hm Hd; [lia|]. cbn [relaned_overwrite]. destruct (Nat.ltb_spec 0 n) as [P|P].
  - set (b := if n <? 8 - offl then n else 8 - offl). assert (B : 0 < b <= n /\ b <= 8 - offl /\ (b = n \/ b = 8 - offl)) by (unfold b; destruct (Nat.ltb_spec n (8 - offl)); lia). clearbody b.
    rewrite over_in_lane_ok by lia. cbn [bind]. assert (Lf : length (firstn b d) = b) by (rewrite firstn_length; lia).
    rewrite IH by (rewrite ?skipn_length, ?put_length; lia). f_equal. replace n with (b + (n - b)) at 2 by lia. rewrite <- (firstn_firstn_skip d b (n - b)).
    rewrite put_app by (rewrite Lf, firstn_length, skipn_length; lia). rewrite Lf. destruct (Nat.eq_dec b n) as [->|Hb].
    + rewrite Nat.sub_diag. cbn [firstn]. rewrite !put_nil. reflexivity.
    + replace (8 * (lp + 1) + 0) with (8 * lp + offl + b) by lia. reflexivity.
  - replace n with 0 by lia. cbn [firstn]. rewrite put_nil. reflexivity.
Qed.
Lemma opt_overwrite_ok m d off n : length m = 200 -> off + n <= 200 -> n <= length d -> opt_overwrite m d off n = Ok (put m off (firstn n d)).
Proof.
  intros Lm Ho Hd. unfold opt_overwrite. destruct (Nat.eqb_spec off 0) as [->|N0].
  - pose proof (Nat.div_mod n 8 ltac:(discriminate)) as E. pose proof (Nat.mod_upper_bound n 8 ltac:(discriminate)) as U. set (k := n / 8) in *. set (r := n mod 8) in *. clearbody k r. subst n.
    unfold overwrite_lanes. replace (k * 8) with (8 * k) by lia. rewrite read0 by lia. cbn [bind]. assert (Lf : length (firstn (8 * k) d) = 8 * k) by (rewrite firstn_length; lia).
    rewrite write_at_ok by lia. cbn [bind]. rewrite over_in_lane_ok by (rewrite ?put_length, ?skipn_length; lia). f_equal.
    rewrite <- (firstn_firstn_skip d (8 * k) r). rewrite put_app by (rewrite Lf, firstn_length, skipn_length; lia). rewrite Lf. rewrite Nat.add_0_r. reflexivity.
  - pose proof (Nat.div_mod off 8 ltac:(discriminate)) as E. pose proof (Nat.mod_upper_bound off 8 ltac:(discriminate)) as U.
    rewrite relaned_over_ok by lia. rewrite <- E. reflexivity.
Qed.
Lemma opt_zeroes_ok m n : length m = 200 -> n <= 200 -> opt_zeroes m n = Ok (put m 0 (repeat 0%N n)).
Proof. intros Lm Hn. apply write_at_ok. rewrite repeat_length. lia. Qed.

(** rounds *)
Definition rounds_n (n : nat) (A : lanes) : lanes := fold_left (fun A i => round i A) (seq (24 - n) n) A.
Definition permute_n (n : nat) (st : bytes) : bytes := copy_to_state (rounds_n n (copy_from_state st)).
Lemma permute_n_bits n st : n <= 24 -> is_bytes st -> length st = 200 -> bits_of (permute_n n st) = keccak_p n (bits_of st).
Proof. intros Hn H L. unfold permute_n, keccak_p. apply to_bits. apply rounds_rep; [lia|]. apply from_rep; assumption. Qed.
Lemma rounds12_eq A : rounds12 A = rounds_n 12 A.
Proof. unfold rounds12. cbv zeta. do 11 (rewrite step_eq; cbv beta iota). rewrite round_last'. unfold rounds_n. cbn [Nat.sub seq fold_left]. reflexivity. Qed.
Lemma round_at_ok i A : i < 24 -> round_at (N.of_nat i) A (prepare_theta A) = Ok (round i A, prepare_theta (round i A)).
Proof. intros H. unfold round_at. replace (N.of_nat i <? 24)%N with true by (symmetry; apply N.ltb_lt; lia). rewrite Nat2N.id. rewrite step_eq. reflexivity. Qed.
Lemma by_two_ok : forall fuel n A, n < fuel -> n <= 12 -> rounds_by_two fuel (N.of_nat (24 - 2 * n)) A (prepare_theta A) = Ok (rounds_n (2 * n) A).
Proof.
  induction fuel as [|fuel IH]; intros n A Hf Hn; [lia|]. cbn [rounds_by_two]. destruct n as [|n]; [reflexivity|].
  replace (N.of_nat (24 - 2 * S n) <? 24)%N with true by (symmetry; apply N.ltb_lt; lia). rewrite round_at_ok by lia. cbn [bind].
  replace (N.of_nat (24 - 2 * S n) + 1)%N with (N.of_nat (24 - 2 * S n + 1)) by lia. rewrite round_at_ok by lia. cbn [bind].
  replace (u32 (N.of_nat (24 - 2 * S n) + 2)) with (N.of_nat (24 - 2 * n)) by (unfold u32; rewrite N.mod_small by lia; lia). rewrite IH by lia. f_equal.
  unfold rounds_n. replace (2 * S n) with (S (S (2 * n))) by lia. cbn [seq fold_left]. replace (24 - S (S (2 * n)) + 1) with (S (24 - S (S (2 * n)))) by lia.
  replace (24 - 2 * n) with (S (S (24 - S (S (2 * n))))) by lia. reflexivity.
Qed.
Lemma start_round n : n <= 24 -> u32 (24 + (2 ^ 32 - N.of_nat n)) = N.of_nat (24 - n).
Proof.
  intros H. unfold u32. replace (24 + (2 ^ 32 - N.of_nat n))%N with (N.of_nat (24 - n) + 1 * 2 ^ 32)%N by lia. rewrite N.mod_add by discriminate. apply N.mod_small. lia.
Qed.
Lemma roundsN_ok n A : n <= 24 -> roundsN (N.of_nat n) A = Ok (rounds_n n A).
Proof.
  intros H. unfold roundsN. cbv zeta. rewrite start_round by exact H. destruct (N.odd (N.of_nat (24 - n))) eqn:O.
  - assert (E : exists k, n = S (2 * k)).
    { apply N.odd_spec in O. destruct O as (a & Ea). exists (11 - N.to_nat a). lia. }
    destruct E as (k & ->). rewrite round_at_ok by lia. cbn [bind].
    replace (u32 (N.of_nat (24 - S (2 * k)) + 1)) with (N.of_nat (24 - 2 * k)) by (unfold u32; rewrite N.mod_small by lia; lia).
    rewrite by_two_ok by lia. f_equal. unfold rounds_n. cbn [seq fold_left]. replace (24 - 2 * k) with (S (24 - S (2 * k))) by lia. reflexivity.
  - assert (E : exists k, n = 2 * k).
    { rewrite <- N.negb_even in O. apply Bool.negb_false_iff in O. apply N.even_spec in O. destruct O as (a & Ea). exists (12 - N.to_nat a). lia. }
    destruct E as (k & ->). apply by_two_ok; lia.
Qed.
Lemma opt_permuteN_ok m n : length m = 200 -> n <= 24 -> opt_permuteN m (N.of_nat n) = Ok (permute_n n m).
Proof. intros L H. unfold opt_permuteN. rewrite L. cbn [Nat.eqb]. rewrite roundsN_ok by exact H. reflexivity. Qed.
Lemma opt_permute12_ok m : length m = 200 -> opt_permute12 m = Ok (permute_n 12 m).
Proof. intros L. unfold opt_permute12. rewrite L. cbn [Nat.eqb]. rewrite rounds12_eq. reflexivity. Qed.
(** more than 24 *)
Lemma roundsN_more n A : (24 < n < 2 ^ 32)%N -> roundsN n A = if N.odd n then UB OutOfBounds else Ok A.
Proof.
  intros H. unfold roundsN. cbv zeta. replace (u32 (24 + (2 ^ 32 - n))) with (2 ^ 32 + 24 - n)%N by (unfold u32; rewrite N.mod_small by lia; lia).
  replace (N.odd (2 ^ 32 + 24 - n)) with (N.odd n) by (rewrite N.odd_sub by lia; change (N.odd (2 ^ 32 + 24)) with false; destruct (N.odd n); reflexivity).
  destruct (N.odd n); [unfold round_at; replace (2 ^ 32 + 24 - n <? 24)%N with false by (symmetry; apply N.ltb_ge; lia); reflexivity|].
  cbn [rounds_by_two]. replace (2 ^ 32 + 24 - n <? 24)%N with false by (symmetry; apply N.ltb_ge; lia). reflexivity.
Qed.
Lemma opt_permuteN_more m n : is_bytes m -> length m = 200 -> (24 < n < 2 ^ 32)%N -> opt_permuteN m n = if N.odd n then UB OutOfBounds else Ok m.
Proof. intros B L H. unfold opt_permuteN. rewrite L. cbn [Nat.eqb]. rewrite roundsN_more by exact H. destruct (N.odd n); [reflexivity|]. cbn [bind]. rewrite to_from by assumption. reflexivity. Qed.

(** extracting and adding: P is what has been written so far *)
Lemma get_nth (m : bytes) k : k < length m -> get m k = Ok (nth k m 0%N).
Proof. intros H. unfold get. rewrite (nth_error_nth' m 0%N H). reflexivity. Qed.
Lemma set_put (m : bytes) k b : k < length m -> set m k b = Ok (put m k [b]).
Proof.
  intros H. unfold set. replace (k <? length m) with true by (symmetry; apply Nat.ltb_lt; exact H). f_equal.
  apply (nth_ext _ _ 0%N 0%N); [rewrite put_length by (cbn [length]; lia); apply upd_length|]. intros i Hi. rewrite put_nth by (cbn [length]; lia). cbn [length].
  rewrite upd_length in Hi. rewrite nth_upd. replace (i <? length m) with true by (symmetry; apply Nat.ltb_lt; exact Hi). destruct (Nat.eqb_spec i k) as [E|Ne]; destruct (Nat.leb_spec k i); destruct (Nat.ltb_spec i (k + 1)); cbn [andb]; try lia; try reflexivity.
  rewrite E, Nat.sub_diag. reflexivity.
Qed.
Lemma slice_one (m : bytes) k : k < length m -> slice m k 1 = [nth k m 0%N].
Proof.
  intros H. apply (nth_ext _ _ 0%N 0%N); [rewrite slice_length by lia; reflexivity|]. rewrite slice_length by lia. intros t Ht. rewrite slice_nth by exact Ht. replace t with 0 by lia. rewrite Nat.add_0_r. reflexivity.
Qed.
Lemma slice_cons (m : bytes) k n : k < length m -> slice m k (S n) = nth k m 0%N :: slice m (k + 1) n.
Proof. intros H. change (S n) with (1 + n). rewrite <- slice_app. rewrite slice_one by exact H. reflexivity. Qed.
Lemma xadd_fold p q d (w : bytes) off : forall n a P, length P + n <= length d -> off + a + n <= length w -> q + length P + n <= length d -> p + length P + n <= length d -> q <= p \/ p + length P + n <= q -> forall p' q', p' + a = p + length P -> q' + a = q + length P ->
  foldM (fun mem i => do x <- get mem (p' + i); do b <- get w (off + i); set mem (q' + i) (N.lxor x b)) (seq a n) (put d q P) = Ok (put d q (P ++ xorl (slice d (p + length P) n) (slice w (off + a) n))).
Proof.
  induction n as [|n IH]; intros a P L0 Hw Hq Hp Hs p' q' Ep Eq; [cbn [seq foldM]; unfold slice; cbn [firstn xorl]; rewrite app_nil_r; reflexivity|].
  cbn [seq foldM]. rewrite Ep, Eq. rewrite get_nth by (rewrite put_length; lia). cbn [bind]. rewrite get_nth by lia. cbn [bind].
  assert (E : nth (p + length P) (put d q P) 0%N = nth (p + length P) d 0%N).
  { pose proof (slice_put d P p q 1 ltac:(lia) ltac:(lia) ltac:(lia)) as X. rewrite !slice_one in X by (rewrite ?put_length; lia). injection X as X. exact X. }
  rewrite E. rewrite set_put by (rewrite put_length; lia). cbn [bind]. rewrite <- put_app by (cbn [length]; lia).
  set (b := N.lxor _ _). assert (Lb : length (P ++ [b]) = length P + 1) by (rewrite app_length; reflexivity).
  rewrite IH by lia. rewrite Lb, <- app_assoc. f_equal. f_equal. f_equal.
  rewrite (slice_cons d (p + length P) n), (slice_cons w (off + a) n) by lia. cbn [app xorl]. unfold b. rewrite Nat.add_assoc. replace (off + S a) with (off + a + 1) by lia. reflexivity.
Qed.
Lemma xadd_in_lane_ok p q d P m lp off n : is_bytes m -> 8 * lp + 8 <= length m -> off + n <= 8 -> q + length P + n <= length d -> p + length P + n <= length d -> q <= p \/ p + length P + n <= q ->
  xadd_in_lane m lp (put d q P) (p + length P) (q + length P) off n = Ok (put d q (P ++ xorl (slice d (p + length P) n) (slice m (8 * lp + off) n))).
Proof.
  intros Bm Hm Ho Hq Hp Hs. unfold xadd_in_lane. rewrite load64_ok by exact Hm. cbn [bind]. rewrite lane_le_bytes by assumption.
  rewrite (xadd_fold p q d (slice m (8 * lp) 8) off n 0 P) by (rewrite ?slice_length; lia). rewrite Nat.add_0_r. rewrite slice_slice by lia. reflexivity.
Qed.
Lemma xadd_lanes_ok p q d m : is_bytes m -> is_bytes d -> forall n a P, 8 * (a + n) <= length m -> length P = 8 * a -> q + length P + 8 * n <= length d -> p + length P + 8 * n <= length d -> q <= p \/ p + length P + 8 * n <= q ->
  foldM (fun mem i => do x <- read mem (p + 8 * i) 8; do b <- load64 m i; write_at mem (q + 8 * i) (le_bytes 8 (N.lxor (le_word x) b))) (seq a n) (put d q P) = Ok (put d q (P ++ xorl (slice d (p + length P) (8 * n)) (slice m (8 * a) (8 * n)))).
Proof.
  intros Bm Bd. induction n as [|n IH]; intros a P Hm LP Hq Hp Hs; [cbn [seq foldM]; unfold slice; cbn [Nat.mul firstn xorl]; rewrite app_nil_r; reflexivity|].
  cbn [seq foldM]. rewrite <- LP. rewrite read_ok by (rewrite put_length; lia). cbn [bind]. rewrite slice_put by lia. rewrite load64_ok by lia. cbn [bind].
  rewrite le_bytes_lxor. rewrite lane_le_bytes by (assumption || lia).
  assert (W : le_bytes 8 (le_word (slice d (p + length P) 8)) = slice d (p + length P) 8) by (rewrite <- (slice_length d (p + length P) 8) at 1 by lia; apply le_bytes_word; apply slice_bytes; exact Bd). rewrite W. clear W.
  set (b := xorl _ _). assert (Lb : length b = 8) by (unfold b; rewrite xorl_length, !slice_length by lia; reflexivity). assert (LP' : length (P ++ b) = 8 * S a) by (rewrite app_length; lia).
  rewrite write_at_ok by (rewrite put_length; lia). cbn [bind]. rewrite <- put_app by lia. rewrite IH by lia. f_equal. f_equal. rewrite <- app_assoc. f_equal.
  replace (8 * S n) with (8 + 8 * n) by lia. rewrite <- (slice_app d (p + length P)), <- (slice_app m (length P)). rewrite xorl_app by (rewrite !slice_length by lia; reflexivity). rewrite LP'. unfold b. rewrite !LP.
  replace (p + 8 * S a) with (p + 8 * a + 8) by lia. replace (8 * S a) with (8 * a + 8) by lia. reflexivity.
Qed.
Lemma relaned_xadd_ok p q d m : is_bytes m -> length m = 200 -> forall fuel P n lp offl, n < fuel -> offl < 8 -> 8 * lp + offl + n <= 200 -> q + length P + n <= length d -> p + length P + n <= length d -> q <= p \/ p + length P + n <= q ->
  relaned_xadd fuel m (put d q P) (p + length P) (q + length P) n lp offl = Ok (put d q (P ++ xorl (slice d (p + length P) n) (slice m (8 * lp + offl) n))).
Proof.
  intros Bm Lm. induction fuel as [|fuel IH]; intros P n lp offl Hf Ho Hm Hq Hp Hs; [lia|]. cbn [relaned_xadd]. destruct (Nat.ltb_spec 0 n) as [N0|N0].
  - set (b := if n <? 8 - offl then n else 8 - offl). assert (B : 0 < b <= n /\ b <= 8 - offl /\ (b = n \/ b = 8 - offl)) by (unfold b; destruct (Nat.ltb_spec n (8 - offl)); lia). clearbody b.
    rewrite xadd_in_lane_ok by (assumption || lia). cbn [bind].
    set (e := xorl _ _). assert (Le : length e = b) by (unfold e; rewrite xorl_length, !slice_length by lia; lia). assert (LP : length (P ++ e) = length P + b) by (rewrite app_length; lia).
    replace (p + length P + b) with (p + length (P ++ e)) by lia. replace (q + length P + b) with (q + length (P ++ e)) by lia. rewrite IH by lia. f_equal. f_equal. rewrite <- app_assoc. f_equal. rewrite LP.
    replace (slice d (p + length P) n) with (slice d (p + length P) b ++ slice d (p + length P + b) (n - b)) by (rewrite slice_app; f_equal; lia).
    replace (slice m (8 * lp + offl) n) with (slice m (8 * lp + offl) b ++ slice m (8 * lp + offl + b) (n - b)) by (rewrite slice_app; f_equal; lia).
    rewrite xorl_app by (rewrite !slice_length by lia; reflexivity). unfold e. f_equal. rewrite Nat.add_assoc. destruct (Nat.eq_dec b n) as [->|Hb].
    + rewrite Nat.sub_diag. unfold slice. cbn [firstn xorl]. reflexivity.
    + replace (8 * (lp + 1) + 0) with (8 * lp + offl + b) by lia. reflexivity.
  - replace n with 0 by lia. unfold slice. cbn [firstn xorl]. rewrite app_nil_r. reflexivity.
Qed.
Lemma opt_xadd_ok m d p q off n : is_bytes m -> is_bytes d -> length m = 200 -> off + n <= 200 -> (off = 0 -> n < 200) -> p + n <= length d -> q + n <= length d -> q <= p \/ p + n <= q ->
  opt_xadd m d p q off n = Ok (put d q (xorl (slice d p n) (slice m off n))).
Proof.
  intros Bm Bd Lm Ho H0 Hp Hq Hs. unfold opt_xadd. destruct (Nat.eqb_spec off 0) as [->|N0].
  - specialize (H0 eq_refl). pose proof (Nat.div_mod n 8 ltac:(discriminate)) as E. pose proof (Nat.mod_upper_bound n 8 ltac:(discriminate)) as U. set (k := n / 8) in *. set (r := n mod 8) in *. clearbody k r. rewrite E in *. clear E n.
    unfold xadd_lanes. rewrite <- (put_nil d q) at 1. rewrite (xadd_lanes_ok p q d m Bm Bd k 0 []) by (cbn [length]; lia). cbn [bind app length]. rewrite Nat.add_0_r. change (8 * 0) with 0.
    set (e := xorl _ _). assert (Le : length e = 8 * k) by (unfold e; rewrite xorl_length, !slice_length by lia; lia). replace (k * 8) with (length e) by lia.
    rewrite xadd_in_lane_ok by (assumption || lia). f_equal. f_equal. rewrite <- (slice_app d), <- (slice_app m). rewrite xorl_app by (rewrite !slice_length by lia; reflexivity). unfold e at 1. rewrite Le. rewrite Nat.add_0_r. reflexivity.
  - pose proof (Nat.div_mod off 8 ltac:(discriminate)) as E. pose proof (Nat.mod_upper_bound off 8 ltac:(discriminate)) as U.
    pose proof (relaned_xadd_ok p q d m Bm Lm (S n) [] n (off / 8) (off mod 8)) as X. cbn [length app] in X. rewrite !Nat.add_0_r, put_nil in X. rewrite X by lia. rewrite <- E. reflexivity.
Qed.
