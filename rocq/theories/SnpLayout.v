(** States of 25 lanes kept in memory at given places: number j of state i is word number pos i j. *)
From Coq Require Import Arith NArith List Bool Lia.
From Verif Require Import Prelude SpongeModel SpongeFacts KeccakModel KeccakFacts KeccakBytes SnpMem.
Import ListNotations.

(** *** xin and words *)
Lemma xin_nth st : forall off d k, k < length st -> nth k (xin st off d) 0%N =
  if (off <=? k) && (k <? off + length d) then N.lxor (nth k st 0%N) (nth (k - off) d 0%N) else nth k st 0%N.
Proof.
  induction st as [|s st IH]; intros off d k Hk; [cbn in Hk; lia|]. cbn [length] in Hk. cbn [xin]. destruct off as [|off].
  - destruct d as [|b d]; [cbn [length Nat.add]; destruct k; reflexivity|]. destruct k as [|k]; [reflexivity|]. cbn [nth]. rewrite IH by lia. cbn [length Nat.add Nat.leb andb Nat.sub nth]. rewrite Nat.sub_0_r.
    change (S k <? S (length d)) with (k <? length d). reflexivity.
  - destruct k as [|k]; [reflexivity|]. cbn [nth]. rewrite IH by lia. reflexivity.
Qed.
Lemma xorl_nth a : forall b k, k < length a -> k < length b -> nth k (xorl a b) 0%N = N.lxor (nth k a 0%N) (nth k b 0%N).
Proof. induction a as [|x a IH]; intros b k Ha Hb; [cbn in Ha; lia|]. destruct b as [|y b]; [cbn in Hb; lia|]. destruct k; [reflexivity|]. cbn [nth xorl]. apply IH; cbn [length] in *; lia. Qed.
Lemma xin_split (st d : bytes) off : off + length d <= length st ->
  xin st off d = firstn off st ++ xorl (slice st off (length d)) d ++ skipn (off + length d) st.
Proof.
  intros H. assert (L1 : length (xorl (slice st off (length d)) d) = length d) by (rewrite xorl_length, slice_length by exact H; lia).
  apply (nth_ext _ _ 0%N 0%N).
  - rewrite xin_length, !app_length, L1, firstn_length, skipn_length. lia.
  - rewrite xin_length. intros k Hk. rewrite xin_nth by exact Hk. destruct (Nat.leb_spec off k) as [A|A]; cbn [andb].
    + rewrite app_nth2 by (rewrite firstn_length; lia). rewrite firstn_length. replace (Nat.min off (length st)) with off by lia. destruct (Nat.ltb_spec k (off + length d)) as [B|B].
      * rewrite app_nth1 by (rewrite L1; lia). rewrite xorl_nth by (rewrite ?slice_length by exact H; lia). rewrite slice_nth by lia. f_equal. f_equal. lia.
      * rewrite app_nth2 by (rewrite L1; lia). rewrite L1, nth_skip'. f_equal. lia.
    + rewrite app_nth1 by (rewrite firstn_length; lia). rewrite nth_first by lia. reflexivity.
Qed.
Lemma lxor_mod256 a b : (N.lxor a b mod 256 = N.lxor (a mod 256) (b mod 256))%N.
Proof.
  apply N.bits_inj. intros k. change 256%N with (2 ^ 8)%N. rewrite N.lxor_spec. destruct (N.ltb_spec k 8) as [H|H].
  - rewrite !N.mod_pow2_bits_low by exact H. apply N.lxor_spec.
  - rewrite !N.mod_pow2_bits_high by exact H. reflexivity.
Qed.
Lemma lxor_div256 a b : (N.lxor a b / 256 = N.lxor (a / 256) (b / 256))%N.
Proof. apply N.bits_inj. intros k. change 256%N with (2 ^ 8)%N. rewrite N.lxor_spec, !N.div_pow2_bits. apply N.lxor_spec. Qed.
Lemma le_bytes_lxor n : forall a b, le_bytes n (N.lxor a b) = xorl (le_bytes n a) (le_bytes n b).
Proof. induction n; intros a b; [reflexivity|]. cbn [le_bytes xorl]. rewrite lxor_mod256, lxor_div256, IHn. reflexivity. Qed.
Lemma le_bytes_slice m i : is_bytes m -> 8 * i + 8 <= length m -> le_bytes 8 (le_word (slice m (8 * i) 8)) = slice m (8 * i) 8.
Proof. intros H L. pose proof (le_bytes_word (slice m (8 * i) 8) (slice_bytes _ _ _ H)) as E. rewrite slice_length in E by exact L. exact E. Qed.
Lemma load64_ok m i : 8 * i + 8 <= length m -> load64 m i = Ok (lane m i).
Proof. intros L. unfold load64. apply Nat.leb_le in L. rewrite L. reflexivity. Qed.
Lemma xor64_xin m i w : is_bytes m -> 8 * i + 8 <= length m -> xor64 m i w = Ok (xin m (8 * i) (le_bytes 8 w)).
Proof.
  intros H L. unfold xor64. rewrite load64_ok by exact L. cbn [bind]. unfold store64. pose proof L as L'. apply Nat.leb_le in L'. rewrite L'. f_equal.
  rewrite le_bytes_lxor. unfold lane. rewrite le_bytes_slice by assumption. rewrite xin_split by (rewrite le_bytes_length; exact L). rewrite le_bytes_length. reflexivity.
Qed.
Lemma xor8_xin m k b : k < length m -> xor8 m k b = Ok (xin m k [b]).
Proof.
  intros L. unfold xor8. rewrite (get_ok m k 0%N) by exact L. cbn [bind]. unfold set. pose proof L as L'. apply Nat.ltb_lt in L'. rewrite L'. f_equal.
  apply (nth_ext _ _ 0%N 0%N); [rewrite upd_length, xin_length; reflexivity|]. rewrite upd_length. intros j Hj. rewrite xin_nth by exact Hj. rewrite nth_upd. cbn [length].
  destruct (Nat.eqb_spec j k) as [->|N].
  - rewrite Nat.leb_refl. replace (k <? k + 1) with true by (symmetry; apply Nat.ltb_lt; lia). rewrite Nat.sub_diag. cbn [andb nth]. rewrite ?L', ?Nat.eqb_refl. reflexivity.
  - replace ((k <=? j) && (j <? k + 1)) with false; [|symmetry; apply andb_false_iff; destruct (Nat.leb_spec k j); [right; apply Nat.ltb_ge; lia|left; reflexivity]].
    try (replace (k =? j) with false by (symmetry; apply Nat.eqb_neq; congruence)). reflexivity.
Qed.

(** a word with the bytes d at byte k *)
Lemma le_word_app a : forall b, le_word (a ++ b) = (le_word a + 256 ^ N.of_nat (length a) * le_word b)%N.
Proof.
  induction a as [|x a IH]; intros b; cbn [le_word app length]; [rewrite N.pow_0_r; lia|]. rewrite IH. rewrite Nat2N.inj_succ, N.pow_succ_r'. lia.
Qed.
Lemma le_word_zeros k : le_word (repeat 0%N k) = 0%N.
Proof. induction k; cbn [repeat le_word]; [reflexivity|]. rewrite IHk. reflexivity. Qed.
Lemma le_bytes_shift d k : is_bytes d -> k + length d <= 8 ->
  le_bytes 8 (N.shiftl (le_word d) (N.of_nat (k * 8)) mod 2 ^ 64) = repeat 0%N k ++ d ++ repeat 0%N (8 - k - length d).
Proof.
  intros Hd Hk. set (l := repeat 0%N k ++ d ++ repeat 0%N (8 - k - length d)).
  assert (Hl : length l = 8) by (unfold l; rewrite !app_length, !repeat_length; lia).
  assert (Bl : is_bytes l).
  { unfold l, is_bytes. apply Forall_app. split; [apply (is_bytes_zeros k)|]. apply Forall_app. split; [exact Hd|apply (is_bytes_zeros (8 - k - length d))]. }
  assert (El : N.shiftl (le_word d) (N.of_nat (k * 8)) = le_word l).
  { unfold l. rewrite !le_word_app, !le_word_zeros, repeat_length. rewrite N.shiftl_mul_pow2. rewrite Nat2N.inj_mul, N.mul_comm, (N.mul_comm (N.of_nat k)), N.pow_mul_r. change (2 ^ N.of_nat 8)%N with 256%N. lia. }
  rewrite El. rewrite N.mod_small.
  - pose proof (le_bytes_word l Bl) as E. rewrite Hl in E. exact E.
  - pose proof (le_word_lt l Bl) as E. rewrite Hl in E. exact E.
Qed.
Lemma xin_word st off d k : is_bytes d -> k + length d <= 8 ->
  xin st off (le_bytes 8 (N.shiftl (le_word d) (N.of_nat (k * 8)) mod 2 ^ 64)) = xin st (off + k) d.
Proof. intros Hd Hk. rewrite le_bytes_shift by assumption. rewrite !xin_app, !xin_zeros, repeat_length. reflexivity. Qed.

(** *** layouts *)
Section Layout.
Variables (n L : nat) (pos : nat -> nat -> nat).
Hypothesis pos_lt : forall i j, i < n -> j < 25 -> pos i j < L.
Hypothesis pos_inj : forall i j i' j', i < n -> j < 25 -> i' < n -> j' < 25 -> pos i j = pos i' j' -> i = i' /\ j = j'.

Definition lay (m : bytes) (sts : list bytes) : Prop :=
  length m = 8 * L /\ is_bytes m /\ length sts = n /\ (forall i, i < n -> length (nth i sts []) = 200 /\ is_bytes (nth i sts [])) /\
  forall i j, i < n -> j < 25 -> slice m (8 * pos i j) 8 = slice (nth i sts []) (8 * j) 8.

Lemma lay_load m sts i j : lay m sts -> i < n -> j < 25 -> load64 m (pos i j) = Ok (lane (nth i sts []) j).
Proof.
  intros (Lm & _ & _ & _ & H) Hi Hj. rewrite load64_ok by (pose proof (pos_lt i j Hi Hj); lia). unfold lane. rewrite H by assumption. reflexivity.
Qed.
Lemma lay_xin m sts i j k d : lay m sts -> i < n -> j < 25 -> k + length d <= 8 -> is_bytes d ->
  lay (xin m (8 * pos i j + k) d) (upd sts i (xin (nth i sts []) (8 * j + k) d)).
Proof.
  intros (Lm & Bm & Ls & Bs & H) Hi Hj Hk Hd. repeat split.
  - rewrite xin_length. exact Lm.
  - apply xin_bytes; assumption.
  - rewrite upd_length. exact Ls.
  - rewrite nth_upd. match goal with |- context [if ?c then _ else _] => destruct c | |- _ => idtac end; rewrite ?xin_length; apply Bs; assumption.
  - rewrite nth_upd. match goal with |- context [if ?c then _ else _] => destruct c | |- _ => idtac end; try (apply xin_bytes; [|exact Hd]); apply Bs; assumption.
  - intros i' j' Hi' Hj'. pose proof (pos_lt i j Hi Hj). pose proof (pos_lt i' j' Hi' Hj'). pose proof (Bs i Hi) as [L1 B1]. pose proof (Bs i' Hi') as [L2 B2].
    assert (LN : length (nth i' (upd sts i (xin (nth i sts []) (8 * j + k) d)) []) = 200).
    { rewrite nth_upd. match goal with |- context [if ?c then _ else _] => destruct c | |- _ => idtac end; rewrite ?xin_length; assumption. }
    apply (nth_ext _ _ 0%N 0%N).
    { rewrite !slice_length; [reflexivity|rewrite LN; lia|rewrite xin_length; lia]. }
    rewrite slice_length by (rewrite xin_length; lia). intros t Ht. rewrite !slice_nth by exact Ht.
    assert (HS : nth (8 * pos i' j' + t) m 0%N = nth (8 * j' + t) (nth i' sts []) 0%N) by (rewrite <- !(slice_nth _ _ 8) by exact Ht; rewrite H by assumption; reflexivity).
    rewrite xin_nth by lia. rewrite nth_upd.
    destruct (Nat.eqb_spec i' i) as [->|Ni].
    + replace (i <? length sts) with true by (symmetry; apply Nat.ltb_lt; lia). cbn [andb]. rewrite xin_nth by lia. rewrite HS. destruct (Nat.eq_dec j j') as [<-|Nj].
      * replace (8 * pos i j + k <=? 8 * pos i j + t) with (8 * j + k <=? 8 * j + t) by (destruct (Nat.leb_spec (8 * j + k) (8 * j + t)), (Nat.leb_spec (8 * pos i j + k) (8 * pos i j + t)); try reflexivity; lia).
        replace (8 * pos i j + t <? 8 * pos i j + k + length d) with (8 * j + t <? 8 * j + k + length d) by (destruct (Nat.ltb_spec (8 * j + t) (8 * j + k + length d)), (Nat.ltb_spec (8 * pos i j + t) (8 * pos i j + k + length d)); try reflexivity; lia).
        replace (8 * pos i j + t - (8 * pos i j + k)) with (8 * j + t - (8 * j + k)) by lia. reflexivity.
      * assert (Np : pos i j <> pos i j') by (intros E; apply Nj; apply (pos_inj i j i j'); assumption).
        match goal with |- (if ?a then _ else _) = (if ?b then _ else _) => assert (Ea : a = false); [|assert (Eb : b = false); [|rewrite Ea, Eb; reflexivity]] end; apply andb_false_iff; match goal with |- (?x <=? ?y) = _ \/ _ => destruct (Nat.leb_spec x y); [right; apply Nat.ltb_ge; lia|left; reflexivity] end.
    + assert (Np : pos i j <> pos i' j') by (intros E; apply Ni; symmetry; apply (pos_inj i j i' j'); assumption). cbn [andb]. rewrite HS.
      match goal with |- (if ?a then _ else _) = _ => assert (Ea : a = false); [|rewrite Ea; reflexivity] end; apply andb_false_iff; match goal with |- (?x <=? ?y) = _ \/ _ => destruct (Nat.leb_spec x y); [right; apply Nat.ltb_ge; lia|left; reflexivity] end.
Qed.
Lemma lay_xor m sts i j w : lay m sts -> i < n -> j < 25 ->
  exists m', xor64 m (pos i j) w = Ok m' /\ lay m' (upd sts i (xin (nth i sts []) (8 * j) (le_bytes 8 w))).
Proof.
  intros H Hi Hj. pose proof (pos_lt i j Hi Hj). pose proof H as (Lm & Bm & _). exists (xin m (8 * pos i j) (le_bytes 8 w)). split; [apply xor64_xin; [exact Bm|lia]|].
  pose proof (lay_xin m sts i j 0 (le_bytes 8 w) H Hi Hj) as X. rewrite !Nat.add_0_r in X. apply X; [rewrite le_bytes_length; lia|apply le_bytes_is_bytes].
Qed.
Lemma lay_byte m sts i j k b : lay m sts -> i < n -> j < 25 -> k < 8 -> is_byte b ->
  exists m', xor8 m (8 * pos i j + k) b = Ok m' /\ lay m' (upd sts i (xin (nth i sts []) (8 * j + k) [b])).
Proof.
  intros H Hi Hj Hk Hb. pose proof (pos_lt i j Hi Hj). pose proof H as (Lm & Bm & _). eexists. split; [apply xor8_xin; lia|]. apply lay_xin; try assumption; [cbn [length]; lia|]. constructor; [exact Hb|constructor].
Qed.
End Layout.
