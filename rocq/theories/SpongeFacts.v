(** Proofs about SpongeModel: absorbing and squeezing are byte-wise folds, whatever the splitting. *)
From Coq Require Import Arith NArith List Bool Lia.
From Verif Require Import Prelude SpongeModel SpongeSpec HashModel.
Import ListNotations.

Lemma xin_length (st : bytes) : forall off d, length (xin st off d) = length st.
Proof. induction st as [|s st IH]; intros [|o] d; simpl; auto. destruct d; simpl; auto. Qed.
Lemma xin_nil (st : bytes) : forall off, xin st off [] = st.
Proof. induction st as [|s st IH]; intros [|o]; simpl; auto. rewrite IH; auto. Qed.
Lemma xin_cons (st : bytes) : forall off b d, xin st off (b :: d) = xin (xin st off [b]) (S off) d.
Proof.
  induction st as [|s st IH]; intros [|o] b d; simpl; auto.
  - rewrite xin_nil. reflexivity.
  - rewrite IH. reflexivity.
Qed.
Lemma xin_app d : forall st off e, xin st off (d ++ e) = xin (xin st off d) (off + length d) e.
Proof.
  induction d as [|b d IH]; intros st off e.
  - cbn [app length]. rewrite xin_nil, Nat.add_0_r. reflexivity.
  - cbn [app length]. rewrite xin_cons, IH, <- xin_cons. f_equal. lia.
Qed.
Lemma xin_zeros n : forall st off, xin st off (repeat 0%N n) = st.
Proof.
  induction n as [|n IH]; intros st off; simpl.
  - apply xin_nil.
  - rewrite xin_cons, IH. revert off. induction st as [|s st IHs]; intros [|o]; simpl; auto.
    + rewrite xin_nil, N.lxor_0_r. reflexivity.
    + rewrite IHs. reflexivity.
Qed.
Lemma xin_twice st : forall off a b, xin (xin st off [a]) off [b] = xin st off [N.lxor a b].
Proof.
  induction st as [|s st IH]; intros [|o] a b; simpl; auto.
  - rewrite !xin_nil, N.lxor_assoc. reflexivity.
  - rewrite IH. reflexivity.
Qed.
Lemma xin_block (st : bytes) : forall b, xin st 0 b = xor_block st b.
Proof.
  unfold xor_block. induction st as [|s st IH]; intros b; simpl; auto.
  destruct b as [|x b].
  - rewrite N.lxor_0_r. f_equal. rewrite <- seq_shift, map_map.
    rewrite <- (xin_nil st 0) at 1. rewrite IH. apply map_ext. intros i. destruct i; reflexivity.
  - f_equal. rewrite IH, <- seq_shift, map_map. reflexivity.
Qed.
Lemma xin_bytes st : is_bytes st -> forall off d, is_bytes d -> is_bytes (xin st off d).
Proof.
  intros Hs. induction Hs as [|s st Hs0 Hs IH]; intros [|o] d Hd; simpl; auto.
  - constructor.
  - constructor.
  - destruct Hd as [|b d Hb Hd]; constructor; auto.
    + clear - Hs0 Hb. unfold byte in *.
      assert (H : (N.lxor s b mod 2 ^ 8 = N.lxor s b)%N).
      { apply N.bits_inj. intros i. destruct (N.lt_ge_cases i 8).
        - rewrite N.mod_pow2_bits_low by lia. reflexivity.
        - rewrite N.mod_pow2_bits_high by lia. rewrite N.lxor_spec.
          rewrite <- (N.mod_small s 256), <- (N.mod_small b 256) by assumption. change 256%N with (2^8)%N.
          rewrite !N.mod_pow2_bits_high by lia. reflexivity. }
      rewrite <- H. apply N.mod_lt. discriminate.
    + apply IH. assumption.
  - constructor; auto. apply IH. assumption.
Qed.

Section Perm.
Variable f : bytes -> bytes.
Hypothesis f_len : forall st : bytes, length st = 200 -> length (f st) = 200.
Section Rate.
Variable rb : nat.
Hypothesis rb_pos : 1 <= rb.
Hypothesis rb_200 : rb <= 200.

(** one byte at a time *)
Definition ab1 (x : bytes * nat) (b : N) : bytes * nat :=
  let st := xin (fst x) (snd x) [b] in if S (snd x) =? rb then (f st, 0) else (st, S (snd x)).

Lemma ab_small (d : bytes) : forall (st : bytes) idx, idx + length d < rb -> fold_left ab1 d (st, idx) = (xin st idx d, idx + length d).
Proof.
  induction d as [|b d IH]; intros st idx H; cbn [fold_left length] in *.
  - rewrite xin_nil, Nat.add_0_r. reflexivity.
  - unfold ab1 at 2. cbn [fst snd]. destruct (Nat.eqb_spec (S idx) rb); [lia|].
    rewrite IH by lia. rewrite <- xin_cons. f_equal. lia.
Qed.
Lemma ab_full (d : bytes) : forall (st : bytes) idx, idx < rb -> idx + length d = rb -> fold_left ab1 d (st, idx) = (f (xin st idx d), 0).
Proof.
  induction d as [|b d IH]; intros st idx L H; cbn [fold_left length] in *; [lia|].
  unfold ab1 at 2. cbn [fst snd]. destruct (Nat.eqb_spec (S idx) rb).
  - destruct d; cbn [length] in H; [|lia]. reflexivity.
  - rewrite IH by lia. rewrite <- xin_cons. reflexivity.
Qed.
Lemma ab_inv (d : bytes) : forall (st : bytes) idx, idx < rb -> length st = 200 ->
  snd (fold_left ab1 d (st, idx)) = (idx + length d) mod rb /\ length (fst (fold_left ab1 d (st, idx))) = 200.
Proof.
  induction d as [|b d IH]; intros st idx L H; cbn [fold_left length] in *.
  - rewrite Nat.add_0_r, Nat.mod_small by lia. auto.
  - assert (E1 : ab1 (st, idx) b = if S idx =? rb then (f (xin st idx [b]), 0) else (xin st idx [b], S idx)) by reflexivity.
    rewrite !E1. destruct (Nat.eqb_spec (S idx) rb).
    + specialize (IH (f (xin st idx [b])) 0 ltac:(lia) ltac:(apply f_len; rewrite xin_length; auto)) as [A B].
      split; auto. refine (eq_trans A _). replace (idx + S (length d)) with (0 + length d + 1 * rb) by lia.
      rewrite Nat.mod_add by lia. reflexivity.
    + specialize (IH (xin st idx [b]) (S idx) ltac:(lia) ltac:(rewrite xin_length; auto)) as [A B].
      split; auto. refine (eq_trans A _). f_equal. lia.
Qed.
Lemma ab_lt (d : bytes) (st : bytes) idx : idx < rb -> length st = 200 -> snd (fold_left ab1 d (st, idx)) < rb.
Proof. intros L H. rewrite (proj1 (ab_inv d st idx L H)). apply Nat.mod_upper_bound. lia. Qed.

(** ** absorbing *)
Lemma add_ok (st d : bytes) off n : off + n <= length st -> n <= length d -> add_bytes st d off (N.of_nat n) = Ok (xin st off (firstn n d)).
Proof.
  intros A B. unfold add_bytes.
  destruct (N.leb_spec (N.of_nat off + N.of_nat n) (N.of_nat (length st))); [|lia].
  destruct (N.leb_spec (N.of_nat n) (N.of_nat (length d))); [|lia].
  cbn [andb]. rewrite Nat2N.id. reflexivity.
Qed.
Lemma blocks_ok : forall fuel (st d : bytes), length st = 200 -> length d < fuel ->
  exists d1 e (st' : bytes), d = d1 ++ e /\ length e < rb /\ absorb_blocks f rb fuel st d = Ok (st', e) /\
    fold_left ab1 d1 (st, 0) = (st', 0) /\ length st' = 200.
Proof.
  induction fuel as [|fuel IH]; intros st d L F; [lia|].
  cbn [absorb_blocks]. destruct (Nat.leb_spec rb (length d)).
  - rewrite add_ok by lia. cbn [bind].
    destruct (IH (f (xin st 0 (firstn rb d))) (skipn rb d)) as (d1 & e & st' & A & B & C & D & E).
    { apply f_len. rewrite xin_length. assumption. }
    { rewrite skipn_length. lia. }
    exists (firstn rb d ++ d1), e, st'. repeat split; auto.
    + rewrite <- app_assoc, <- A, firstn_skipn. reflexivity.
    + rewrite fold_left_app, ab_full; auto. rewrite firstn_length. lia.
  - exists [], d, st. repeat split; auto.
Qed.
Lemma loop_small fuel (st : bytes) idx (d : bytes) : 2 <= fuel -> length st = 200 -> idx + length d < rb ->
  absorb_loop f rb fuel st idx d = Ok (fold_left ab1 d (st, idx)).
Proof.
  intros F L H. destruct fuel as [|[|fuel]]; try lia.
  rewrite ab_small by assumption. cbn [absorb_loop].
  destruct (Nat.eqb_spec (length d) 0) as [E|E].
  { destruct d; [|discriminate]. rewrite xin_nil, Nat.add_0_r. reflexivity. }
  assert (B : (idx =? 0) && (rb <=? length d) = false).
  { destruct (Nat.leb_spec rb (length d)); [lia|]. apply andb_false_r. }
  rewrite B. unfold u32. rewrite (N.mod_small (N.of_nat (length d))) by lia. rewrite N.mod_small by lia.
  destruct (N.ltb_spec (N.of_nat rb) (N.of_nat (length d) + N.of_nat idx)); [lia|].
  rewrite add_ok by lia. cbn [bind]. rewrite Nat2N.id.
  destruct (Nat.eqb_spec (idx + length d) rb); [lia|].
  rewrite firstn_all, skipn_all. reflexivity.
Qed.
Lemma loop_zero fuel (st d : bytes) : length d + 3 <= fuel -> length st = 200 ->
  absorb_loop f rb fuel st 0 d = Ok (fold_left ab1 d (st, 0)).
Proof.
  intros F L. destruct (Nat.ltb_spec (length d) rb) as [S|S].
  { apply loop_small; auto; lia. }
  destruct fuel as [|fuel]; [lia|]. cbn [absorb_loop].
  destruct (Nat.eqb_spec (length d) 0); [lia|].
  destruct (Nat.leb_spec rb (length d)); [|lia]. cbn [andb Nat.eqb].
  destruct (blocks_ok (Datatypes.S fuel) st d L ltac:(lia)) as (d1 & e & st' & A & B & C & D & E).
  rewrite C. cbn [bind]. rewrite loop_small by (auto; lia).
  f_equal. rewrite A at 1. rewrite fold_left_app, D. reflexivity.
Qed.
Lemma loop_ok fuel (st : bytes) idx (d : bytes) : length d + 4 <= fuel -> length st = 200 -> idx < rb ->
  (idx = 0 \/ good_length rb idx (N.of_nat (length d))) ->
  absorb_loop f rb fuel st idx d = Ok (fold_left ab1 d (st, idx)).
Proof.
  intros F L I G. destruct (Nat.eqb_spec idx 0) as [Z|Z].
  { subst idx. apply loop_zero; auto; lia. }
  destruct G as [G|G]; [contradiction|].
  destruct (Nat.ltb_spec (idx + length d) rb) as [S|S].
  { apply loop_small; auto; lia. }
  destruct fuel as [|fuel]; [lia|]. cbn [absorb_loop].
  destruct (Nat.eqb_spec (length d) 0); [lia|].
  destruct (Nat.eqb_spec idx 0); [lia|]. cbn [andb].
  assert (P : (if N.ltb (N.of_nat rb) (u32 (u32 (N.of_nat (length d)) + N.of_nat idx)) then N.of_nat (rb - idx)
               else u32 (N.of_nat (length d))) = N.of_nat (rb - idx)).
  { unfold u32. destruct G as [G|[G1 G2]].
    - rewrite (N.mod_small (N.of_nat (length d))) by lia. rewrite N.mod_small by lia.
      destruct (N.ltb_spec (N.of_nat rb) (N.of_nat (length d) + N.of_nat idx)); lia.
    - rewrite (N.mod_small (_ + _)) by lia.
      destruct (N.ltb_spec (N.of_nat rb) (N.of_nat (length d) mod 2 ^ 32 + N.of_nat idx)); lia. }
  rewrite P. rewrite add_ok by lia. cbn [bind]. rewrite Nat2N.id.
  destruct (Nat.eqb_spec (idx + (rb - idx)) rb); [|lia].
  rewrite loop_zero; [| rewrite skipn_length; lia | apply f_len; rewrite xin_length; assumption ].
  f_equal. transitivity (fold_left ab1 (firstn (rb - idx) d ++ skipn (rb - idx) d) (st, idx)).
  2: { rewrite firstn_skipn. reflexivity. }
  rewrite fold_left_app, (ab_full (firstn (rb - idx) d)) by (rewrite ?firstn_length; lia). reflexivity.
Qed.
(** what happens otherwise *)
Lemma loop_stuck : forall fuel (st : bytes) idx (d : bytes), length st = 200 -> 0 < idx -> idx < rb -> d <> [] ->
  (N.of_nat (length d) mod 2 ^ 32 = 0)%N -> absorb_loop f rb fuel st idx d = OutOfFuel.
Proof.
  induction fuel as [|fuel IH]; intros st idx d L I J D M; [reflexivity|].
  cbn [absorb_loop]. destruct (Nat.eqb_spec (length d) 0). { destruct d; [contradiction|discriminate]. }
  destruct (Nat.eqb_spec idx 0); [lia|]. cbn [andb].
  unfold u32. rewrite M, N.add_0_l, N.mod_small by lia.
  destruct (N.ltb_spec (N.of_nat rb) (N.of_nat idx)); [lia|].
  change 0%N with (N.of_nat 0). rewrite add_ok by lia. cbn [bind N.of_nat N.to_nat].
  rewrite Nat.add_0_r. destruct (Nat.eqb_spec idx rb); [lia|].
  cbn [skipn]. apply IH; auto. rewrite xin_length. assumption.
Qed.
Lemma loop_hangs fuel (st : bytes) idx (d : bytes) : length st = 200 -> 0 < idx -> idx < rb ->
  (2 ^ 32 <= N.of_nat (length d))%N -> (N.of_nat (length d) mod 2 ^ 32 + N.of_nat idx < N.of_nat rb)%N ->
  absorb_loop f rb fuel st idx d = OutOfFuel.
Proof.
  intros L I J D M. destruct fuel as [|fuel]; [reflexivity|].
  cbn [absorb_loop]. destruct (Nat.eqb_spec (length d) 0); [lia|].
  destruct (Nat.eqb_spec idx 0); [lia|]. cbn [andb].
  unfold u32. pose proof (N.mod_le (N.of_nat (length d)) (2 ^ 32) ltac:(discriminate)) as ML.
  set (p := (N.of_nat (length d) mod 2 ^ 32)%N) in *.
  rewrite N.mod_small by lia.
  destruct (N.ltb_spec (N.of_nat rb) (p + N.of_nat idx)); [lia|].
  rewrite <- (N2Nat.id p). rewrite add_ok by lia. cbn [bind]. rewrite N2Nat.id.
  destruct (Nat.eqb_spec (idx + N.to_nat p) rb); [lia|].
  apply loop_stuck; try lia.
  - rewrite xin_length. assumption.
  - intros E. apply (f_equal (@length N)) in E. rewrite skipn_length in E. cbn [length] in E.
    assert (N.of_nat (length d) <= p)%N by lia.
    pose proof (N.mod_lt (N.of_nat (length d)) (2 ^ 32) ltac:(discriminate)). lia.
  - rewrite skipn_length, Nat2N.inj_sub, N2Nat.id. unfold p.
    rewrite (N.mod_eq (N.of_nat (length d)) (2 ^ 32)) by discriminate.
    set (q := (N.of_nat (length d) / 2 ^ 32)%N).
    assert (Q : (2 ^ 32 * q <= N.of_nat (length d))%N) by (apply N.mul_div_le; discriminate).
    replace (N.of_nat (length d) - (N.of_nat (length d) - 2 ^ 32 * q))%N with (q * 2 ^ 32)%N by lia.
    apply N.mod_mul. discriminate.
Qed.
Lemma loop_overruns fuel (st : bytes) idx (d : bytes) : 0 < fuel -> length st = 200 -> 0 < idx -> idx < rb -> d <> [] ->
  (2 ^ 32 <= N.of_nat (length d) mod 2 ^ 32 + N.of_nat idx)%N ->
  absorb_loop f rb fuel st idx d = UB OutOfBounds.
Proof.
  intros F L I J D M. destruct fuel as [|fuel]; [lia|].
  cbn [absorb_loop]. destruct (Nat.eqb_spec (length d) 0). { destruct d; [contradiction|discriminate]. }
  destruct (Nat.eqb_spec idx 0); [lia|]. cbn [andb].
  unfold u32. pose proof (N.mod_lt (N.of_nat (length d)) (2 ^ 32) ltac:(discriminate)) as ML.
  set (p := (N.of_nat (length d) mod 2 ^ 32)%N) in *.
  replace ((p + N.of_nat idx) mod 2 ^ 32)%N with (p + N.of_nat idx - 2 ^ 32)%N.
  2: { symmetry. replace (p + N.of_nat idx)%N with (p + N.of_nat idx - 2 ^ 32 + 1 * 2 ^ 32)%N at 1 by lia.
       rewrite N.mod_add by discriminate. apply N.mod_small. lia. }
  destruct (N.ltb_spec (N.of_nat rb) (p + N.of_nat idx - 2 ^ 32)); [lia|].
  unfold add_bytes. destruct (N.leb_spec (N.of_nat idx + p) (N.of_nat (length st))); [lia|]. reflexivity.
Qed.

(** ** the padded message *)
Lemma absorb_n_fold : forall n (st p : bytes), length p = n * rb -> length st = 200 ->
  fold_left ab1 p (st, 0) = (absorb_n f rb n st p, 0).
Proof.
  induction n as [|n IH]; intros st p H L; cbn [absorb_n].
  - destruct p; [reflexivity | discriminate].
  - rewrite <- (firstn_skipn rb p) at 1.
    rewrite fold_left_app, (ab_full (firstn rb p)) by (rewrite ?firstn_length; lia).
    rewrite xin_block. apply IH. { rewrite skipn_length. lia. }
    apply f_len. rewrite <- xin_block, xin_length. assumption.
Qed.
Lemma pad_length (m : bytes) : exists n, length (shake_pad rb m) = n * rb.
Proof.
  exists (S (length m / rb)). unfold shake_pad.
  pose proof (Nat.mod_upper_bound (length m) rb ltac:(lia)). pose proof (Nat.div_mod (length m) rb ltac:(lia)).
  destruct (Nat.eqb_spec (rb - length m mod rb) 1); rewrite !app_length, ?repeat_length; cbn [length]; lia.
Qed.
(** the state after hash_final *)
Lemma last_absorbed (m st : bytes) idx : fold_left ab1 m ((repeat 0%N 200 : bytes), 0) = (st, idx) ->
  f (xin (xin st idx [31%N]) (rb - 1) [128%N]) = absorbed f rb m.
Proof.
  intros E.
  destruct (ab_inv m (repeat 0%N 200) 0 ltac:(lia) eq_refl) as [A B]. rewrite E in A, B. cbn [fst snd] in A, B.
  rewrite Nat.add_0_l in A.
  assert (I : idx < rb) by (rewrite A; apply Nat.mod_upper_bound; lia).
  destruct (pad_length m) as [n Hn].
  pose proof (absorb_n_fold n (repeat 0%N 200) _ Hn eq_refl) as F.
  unfold absorbed. rewrite Hn, Nat.div_mul by lia.
  apply (f_equal fst) in F. cbn [fst] in F. rewrite <- F. clear F Hn.
  unfold shake_pad. rewrite <- A. destruct (Nat.eqb_spec (rb - idx) 1) as [O|O].
  - rewrite fold_left_app, E, ab_full by (cbn [length]; lia). cbn [fst].
    replace (rb - 1) with idx by lia. rewrite xin_twice. reflexivity.
  - rewrite fold_left_app, E, ab_full.
    2: assumption.
    2: { cbn [app length]. rewrite app_length, repeat_length. cbn [length]. lia. }
    cbn [fst]. cbn [app]. rewrite (xin_cons st idx 31%N (repeat 0%N (rb - idx - 2) ++ [128%N])), xin_app, xin_zeros. rewrite repeat_length.
    do 2 f_equal. lia.
Qed.

(** ** squeezing, one byte at a time *)
Fixpoint pull (n : nat) (st : bytes) (idx : nat) : bytes * bytes * nat :=
  match n with
  | O => ([], st, idx)
  | S n' =>
    let (st, idx) := if idx =? rb then (f st, 0) else (st, idx) in
    let '(o, st', idx') := pull n' st (S idx) in (nth idx st 0%N :: o, st', idx')
  end.
Lemma slice_S (st : bytes) i n : i < length st -> slice st i (S n) = nth i st 0%N :: slice st (S i) n.
Proof.
  intros H. unfold slice. revert i H. induction st as [|s st IH]; intros i H; [simpl in H; lia|].
  destruct i as [|i]; [reflexivity|]. cbn [length] in H. cbn [skipn nth]. apply IH. lia.
Qed.
Lemma pull_small : forall n (st : bytes) idx, length st = 200 -> idx < rb -> idx + n <= rb ->
  pull n st idx = (slice st idx n, st, idx + n).
Proof.
  induction n as [|n IH]; intros st idx L I H; cbn [pull].
  - rewrite Nat.add_0_r. reflexivity.
  - destruct (Nat.eqb_spec idx rb); [lia|].
    destruct (Nat.eqb_spec n 0) as [Z|Z].
    + subst n. cbn [pull]. rewrite slice_S by lia. cbn [slice firstn]. f_equal. lia.
    + rewrite IH by lia. rewrite slice_S by lia. f_equal. lia.
Qed.
Lemma pull_app : forall n k (st : bytes) idx, pull (n + k) st idx =
  (let '(o, st', idx') := pull n st idx in let '(o', st'', idx'') := pull k st' idx' in (o ++ o', st'', idx'')).
Proof.
  induction n as [|n IH]; intros k st idx; cbn [pull Nat.add].
  - destruct (pull k st idx) as [[o s] i]. reflexivity.
  - destruct (if idx =? rb then (f st, 0) else (st, idx)) as [s i].
    rewrite IH. destruct (pull n s (S i)) as [[o s'] i']. destruct (pull k s' i') as [[o' s''] i'']. reflexivity.
Qed.
Lemma pull_full (st : bytes) n : length st = 200 -> 1 <= n <= rb -> pull n st rb = (slice (f st) 0 n, f st, n).
Proof.
  intros L H. destruct n as [|n]; [lia|].
  assert (E : pull (S n) st rb = pull (S n) (f st) 0).
  { cbn [pull]. rewrite Nat.eqb_refl. destruct (Nat.eqb_spec 0 rb); [lia|]. reflexivity. }
  rewrite E, pull_small by (auto; lia). reflexivity.
Qed.
Lemma extract_ok (st : bytes) off n : off + n <= length st -> extract_bytes st off (N.of_nat n) = Ok (slice st off n).
Proof.
  intros H. unfold extract_bytes. destruct (N.leb_spec (N.of_nat off + N.of_nat n) (N.of_nat (length st))); [|lia].
  rewrite Nat2N.id. reflexivity.
Qed.
Lemma sblocks_ok : forall fuel (st : bytes) need, length st = 200 -> need < fuel ->
  exists n1 n2 o st', need = n1 + n2 /\ n2 < rb /\ squeeze_blocks f rb fuel st need = Ok (o, st', n2) /\
    pull n1 st rb = (o, st', rb) /\ length st' = 200.
Proof.
  induction fuel as [|fuel IH]; intros st need L F; [lia|].
  cbn [squeeze_blocks]. destruct (Nat.leb_spec rb need).
  - rewrite extract_ok by (rewrite f_len; lia). cbn [bind].
    destruct (IH (f st) (need - rb) (f_len _ L) ltac:(lia)) as (n1 & n2 & o & st' & A & B & C & D & E).
    rewrite C. cbn [bind]. exists (rb + n1), n2, (slice (f st) 0 rb ++ o), st'. repeat split; auto; try lia.
    rewrite pull_app, pull_full by (auto; lia). rewrite D. reflexivity.
  - exists 0, need, [], st. repeat split; auto.
Qed.
Lemma sloop_nil fuel st idx : 1 <= fuel -> squeeze_loop f rb fuel st idx 0 = Ok ([], st, idx).
Proof. destruct fuel; [lia|reflexivity]. Qed.
Lemma sloop_small fuel (st : bytes) idx need : 2 <= fuel -> length st = 200 -> idx < rb -> idx + need <= rb ->
  squeeze_loop f rb fuel st idx need = Ok (pull need st idx).
Proof.
  intros F L I H. destruct fuel as [|[|fuel]]; try lia. rewrite pull_small by assumption.
  remember (S fuel) as fuel' eqn:EF. cbn [squeeze_loop].
  destruct (Nat.eqb_spec need 0) as [Z|Z]. { subst need. rewrite Nat.add_0_r. reflexivity. }
  destruct (Nat.eqb_spec idx rb); [lia|]. cbn [andb].
  unfold u32. rewrite (N.mod_small (N.of_nat need)) by lia. rewrite N.mod_small by lia.
  destruct (N.ltb_spec (N.of_nat rb) (N.of_nat need + N.of_nat idx)); [lia|].
  rewrite extract_ok by lia. cbn [bind]. rewrite Nat2N.id, Nat.sub_diag, sloop_nil by lia. cbn [bind].
  rewrite app_nil_r. reflexivity.
Qed.
Lemma sloop_full fuel (st : bytes) need : need + 3 <= fuel -> length st = 200 ->
  squeeze_loop f rb fuel st rb need = Ok (pull need st rb).
Proof.
  intros F L. destruct (Nat.eqb_spec need 0) as [Z|Z]. { subst need. apply sloop_nil. lia. }
  assert (SM : forall fuel (st : bytes) need, 2 <= fuel -> length st = 200 -> need < rb -> squeeze_loop f rb fuel st rb need = Ok (pull need st rb)).
  { clear - f_len rb_pos rb_200. intros fuel st need F L H. destruct fuel as [|[|fuel]]; try lia.
    destruct (Nat.eqb_spec need 0) as [Z|Z]. { subst need. apply sloop_nil. lia. }
    rewrite pull_full by (auto; lia).
    remember (S fuel) as fuel' eqn:EF. cbn [squeeze_loop].
    destruct (Nat.eqb_spec need 0); [lia|]. rewrite Nat.eqb_refl.
    destruct (Nat.leb_spec rb need); [lia|]. cbn [andb].
    unfold u32. rewrite (N.mod_small (N.of_nat need)) by lia. rewrite N.mod_small by lia.
    destruct (N.ltb_spec (N.of_nat rb) (N.of_nat need + N.of_nat 0)); [lia|].
    rewrite extract_ok by (rewrite f_len; lia). cbn [bind]. rewrite Nat2N.id, Nat.sub_diag, sloop_nil by lia. cbn [bind].
    rewrite app_nil_r. reflexivity. }
  destruct (Nat.ltb_spec need rb). { apply SM; auto; lia. }
  destruct fuel as [|fuel]; [lia|]. cbn [squeeze_loop].
  destruct (Nat.eqb_spec need 0); [lia|]. rewrite Nat.eqb_refl.
  destruct (Nat.leb_spec rb need); [|lia]. cbn [andb].
  destruct (sblocks_ok (S fuel) st need L ltac:(lia)) as (n1 & n2 & o & st' & A & B & C & D & E).
  rewrite C. cbn [bind]. rewrite SM by (auto; lia). cbn [bind].
  rewrite A, pull_app, D. destruct (pull n2 st' rb) as [[o' s''] i'']. reflexivity.
Qed.
Lemma sloop_ok fuel (st : bytes) idx need : need + 4 <= fuel -> length st = 200 -> idx <= rb ->
  (idx = rb \/ good_length rb idx (N.of_nat need)) ->
  squeeze_loop f rb fuel st idx need = Ok (pull need st idx).
Proof.
  intros F L I G. destruct (Nat.eqb_spec idx rb) as [Z|Z]. { subst idx. apply sloop_full; auto; lia. }
  destruct G as [G|G]; [contradiction|].
  destruct (Nat.leb_spec (idx + need) rb). { apply sloop_small; auto; lia. }
  destruct fuel as [|fuel]; [lia|]. cbn [squeeze_loop].
  destruct (Nat.eqb_spec need 0); [lia|].
  destruct (Nat.eqb_spec idx rb); [lia|]. cbn [andb].
  assert (P : (if N.ltb (N.of_nat rb) (u32 (u32 (N.of_nat need) + N.of_nat idx)) then N.of_nat (rb - idx)
               else u32 (N.of_nat need)) = N.of_nat (rb - idx)).
  { unfold u32. destruct G as [G|[G1 G2]].
    - rewrite (N.mod_small (N.of_nat need)) by lia. rewrite N.mod_small by lia.
      destruct (N.ltb_spec (N.of_nat rb) (N.of_nat need + N.of_nat idx)); lia.
    - rewrite (N.mod_small (_ + _)) by lia.
      destruct (N.ltb_spec (N.of_nat rb) (N.of_nat need mod 2 ^ 32 + N.of_nat idx)); lia. }
  rewrite P. rewrite extract_ok by lia. cbn [bind]. rewrite Nat2N.id.
  replace (idx + (rb - idx)) with rb by lia.
  rewrite sloop_full by (auto; lia). cbn [bind].
  assert (EN : pull need st idx = pull ((rb - idx) + (need - (rb - idx))) st idx) by (f_equal; lia).
  rewrite EN, pull_app, (pull_small (rb - idx)) by (auto; lia). replace (idx + (rb - idx)) with rb by lia.
  destruct (pull (need - (rb - idx)) st rb) as [[o' s''] i'']. reflexivity.
Qed.
Lemma sloop_stuck : forall fuel (st : bytes) idx need, length st = 200 -> idx < rb -> need <> 0 ->
  (N.of_nat need mod 2 ^ 32 = 0)%N -> squeeze_loop f rb fuel st idx need = OutOfFuel.
Proof.
  induction fuel as [|fuel IH]; intros st idx need L J D M; [reflexivity|].
  cbn [squeeze_loop]. destruct (Nat.eqb_spec need 0); [lia|].
  destruct (Nat.eqb_spec idx rb); [lia|]. cbn [andb].
  unfold u32. rewrite M, N.add_0_l, N.mod_small by lia.
  destruct (N.ltb_spec (N.of_nat rb) (N.of_nat idx)); [lia|].
  change 0%N with (N.of_nat 0). rewrite extract_ok by lia. cbn [bind N.of_nat N.to_nat].
  rewrite Nat.add_0_r, Nat.sub_0_r, IH by auto. reflexivity.
Qed.
Lemma sloop_hangs fuel (st : bytes) idx need : length st = 200 -> idx < rb ->
  (2 ^ 32 <= N.of_nat need)%N -> (N.of_nat need mod 2 ^ 32 + N.of_nat idx < N.of_nat rb)%N ->
  squeeze_loop f rb fuel st idx need = OutOfFuel.
Proof.
  intros L J D M. destruct fuel as [|fuel]; [reflexivity|].
  cbn [squeeze_loop]. destruct (Nat.eqb_spec need 0); [lia|].
  destruct (Nat.eqb_spec idx rb); [lia|]. cbn [andb].
  unfold u32. pose proof (N.mod_le (N.of_nat need) (2 ^ 32) ltac:(discriminate)) as ML.
  set (p := (N.of_nat need mod 2 ^ 32)%N) in *.
  rewrite N.mod_small by lia.
  destruct (N.ltb_spec (N.of_nat rb) (p + N.of_nat idx)); [lia|].
  rewrite <- (N2Nat.id p). rewrite extract_ok by lia. cbn [bind]. rewrite N2Nat.id.
  rewrite sloop_stuck; auto; try lia.
  rewrite Nat2N.inj_sub, N2Nat.id. unfold p.
  rewrite (N.mod_eq (N.of_nat need) (2 ^ 32)) by discriminate.
  set (q := (N.of_nat need / 2 ^ 32)%N).
  assert (Q : (2 ^ 32 * q <= N.of_nat need)%N) by (apply N.mul_div_le; discriminate).
  replace (N.of_nat need - (N.of_nat need - 2 ^ 32 * q))%N with (q * 2 ^ 32)%N by lia.
  apply N.mod_mul. discriminate.
Qed.
Lemma sloop_overruns fuel (st : bytes) idx need : 0 < fuel -> length st = 200 -> idx < rb -> need <> 0 ->
  (2 ^ 32 <= N.of_nat need mod 2 ^ 32 + N.of_nat idx)%N ->
  squeeze_loop f rb fuel st idx need = UB OutOfBounds.
Proof.
  intros F L J D M. destruct fuel as [|fuel]; [lia|].
  cbn [squeeze_loop]. destruct (Nat.eqb_spec need 0); [lia|].
  destruct (Nat.eqb_spec idx rb); [lia|]. cbn [andb].
  unfold u32. pose proof (N.mod_lt (N.of_nat need) (2 ^ 32) ltac:(discriminate)) as ML.
  set (p := (N.of_nat need mod 2 ^ 32)%N) in *.
  replace ((p + N.of_nat idx) mod 2 ^ 32)%N with (p + N.of_nat idx - 2 ^ 32)%N.
  2: { symmetry. replace (p + N.of_nat idx)%N with (p + N.of_nat idx - 2 ^ 32 + 1 * 2 ^ 32)%N at 1 by lia.
       rewrite N.mod_add by discriminate. apply N.mod_small. lia. }
  destruct (N.ltb_spec (N.of_nat rb) (p + N.of_nat idx - 2 ^ 32)); [lia|].
  unfold extract_bytes. destruct (N.leb_spec (N.of_nat idx + p) (N.of_nat (length st))); [lia|]. reflexivity.
Qed.

(** the stream *)
Definition at_pos (st0 : bytes) (k : nat) (st : bytes) (idx : nat) : Prop :=
  exists q, k = q * rb + idx /\ idx <= rb /\ st = Nat.iter q f st0.
Lemma pull_stream st0 : forall n k (st : bytes) idx, at_pos st0 k st idx ->
  exists st' idx', pull n st idx = (map (fun i => nth (i mod rb) (Nat.iter (i / rb) f st0) 0%N) (seq k n), st', idx') /\
    at_pos st0 (k + n) st' idx'.
Proof.
  induction n as [|n IH]; intros k st idx A.
  - exists st, idx. rewrite Nat.add_0_r. auto.
  - cbn [pull seq map]. destruct A as (q & K & I & S0).
    assert (B : exists q' idx', (if idx =? rb then (f st, 0) else (st, idx)) = (Nat.iter q' f st0, idx') /\ k = q' * rb + idx' /\ idx' < rb).
    { destruct (Nat.eqb_spec idx rb).
      - exists (S q), 0. subst st. split; [reflexivity|]. lia.
      - exists q, idx. subst st. split; [reflexivity|]. lia. }
    destruct B as (q' & idx' & E & K' & I'). rewrite E.
    destruct (IH (S k) (Nat.iter q' f st0) (S idx')) as (st'' & idx'' & P & A').
    { exists q'. repeat split; lia. }
    rewrite P. exists st'', idx''. split.
    + do 2 f_equal. f_equal. replace (k mod rb) with idx'. replace (k / rb) with q'. reflexivity.
      * rewrite K'. rewrite Nat.div_add_l by lia. rewrite Nat.div_small by lia. lia.
      * rewrite K'. rewrite Nat.add_comm, Nat.mod_add by lia. rewrite Nat.mod_small by lia. reflexivity.
    + replace (k + S n) with (S k + n) by lia. assumption.
Qed.
Lemma iter_len q st0 : length st0 = 200 -> length (Nat.iter q f st0) = 200.
Proof. intros L. induction q; simpl; auto. Qed.
End Rate.
End Perm.
