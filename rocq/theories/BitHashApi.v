(** The calls of the hash library, one by one *)
From Coq Require Import Arith NArith List Bool Lia.
From Verif Require Import Prelude SpongeModel SpongeSpec SpongeFacts SpongeApi BitHashModel BitHashSpec BitHashFacts.
Import ListNotations.

Lemma firstn_bits n (d : bytes) : firstn (8 * n) (bits_of d) = bits_of (firstn n d).
Proof.
  revert d. induction n as [|n IH]; intros d; [reflexivity|]. destruct d as [|b d]; [apply firstn_nil|].
  change (bits_of (b :: d)) with (bits_of_byte b ++ bits_of d). rewrite firstn_app, byte_length.
  replace (8 * S n - 8) with (8 * n) by lia. rewrite IH, firstn_all2 by (rewrite byte_length; lia). reflexivity.
Qed.
Lemma firstn_split n (d : bytes) last : nth_error d (n / 8) = Some last ->
  firstn n (bits_of d) = bits_of (firstn (n / 8) d) ++ firstn (n mod 8) (bits_of_byte last).
Proof.
  intros E. pose proof (Nat.div_mod n 8 ltac:(discriminate)) as D. pose proof (Nat.mod_upper_bound n 8 ltac:(discriminate)) as U.
  apply nth_error_split in E. destruct E as (l1 & l2 & E & L). rewrite D at 1. rewrite <- L in *. clear L D. subst d.
  rewrite bits_app. change (bits_of (last :: l2)) with (bits_of_byte last ++ bits_of l2).
  rewrite firstn_app, firstn_all2 by (rewrite bits_length; lia). rewrite bits_length.
  replace (8 * length l1 + n mod 8 - 8 * length l1) with (n mod 8) by lia.
  rewrite firstn_app, byte_length. replace (n mod 8 - 8) with 0 by lia. rewrite app_nil_r.
  rewrite (firstn_app (length l1) l1), firstn_all, Nat.sub_diag, app_nil_r. reflexivity.
Qed.

Lemma bad_iff rate capacity : (capacity < 2 ^ 32)%N ->
  bad_rate rate capacity = false <-> (rate + capacity = 1600 /\ 0 < rate /\ rate mod 8 = 0)%N.
Proof.
  intros C. unfold bad_rate, u32. rewrite !orb_false_iff, !negb_false_iff, !N.eqb_eq, N.leb_gt, N.ltb_ge. split.
  - intros [A [[B D] E]]. repeat split; auto. destruct (N.ltb_spec (rate + capacity) (2 ^ 32)) as [L|L].
    + rewrite N.mod_small in A by assumption. assumption.
    + assert (X : ((rate + capacity) mod 2 ^ 32 = rate + capacity - 2 ^ 32)%N).
      { replace (rate + capacity)%N with (rate + capacity - 2 ^ 32 + 1 * 2 ^ 32)%N at 1 by lia.
        rewrite N.mod_add by discriminate. apply N.mod_small. lia. }
      rewrite X in A. lia.
  - intros (A & B & D). rewrite A. repeat split; auto. lia.
Qed.

Section Run.
Variable f : bytes -> bytes.
Hypothesis f_len : forall st : bytes, length st = 200 -> length (f st) = 200.
Section Rate.
Variable rb : nat.
Hypothesis rb_pos : 1 <= rb.
Hypothesis rb_200 : rb <= 200.

Definition kstate (n : list bool) : bytes := let p := padded rb n in absorb_n f rb (length p / rb) (repeat 0%N 200) p.

Definition sp_whole (s : sponge) (m : bytes) : Prop :=
  sp_rate s = 8 * rb /\ sp_squeezing s = false /\
  (sp_state s, sp_idx s) = fold_left (ab1 f rb) m ((repeat 0%N 200 : bytes), 0).
Definition sp_drained (s : sponge) (n : list bool) (off : nat) : Prop :=
  sp_rate s = 8 * rb /\ sp_squeezing s = true /\ length (kstate n) = 200 /\ at_pos f rb (kstate n) off (sp_state s) (sp_idx s).
(** the bytes m have been absorbed, the suffix is s *)
Definition whole (k : khash) (m : bytes) (s : N) : Prop :=
  is_bytes m /\ (0 < s < 256)%N /\ kh_suffix k = s /\ sp_whole (kh_sponge k) m.
Definition drained (k : khash) (n : list bool) (off : nat) : Prop := sp_drained (kh_sponge k) n off.

Lemma rate8' : 8 * rb / 8 = rb.
Proof. rewrite Nat.mul_comm. apply Nat.div_mul. discriminate. Qed.
Lemma whole_inv s m : sp_whole s m -> length (sp_state s) = 200 /\ sp_idx s = length m mod rb /\ sp_idx s < rb.
Proof.
  intros (_ & _ & E).
  destruct (ab_inv f f_len rb ltac:(lia) ltac:(lia) m (repeat 0%N 200) 0 ltac:(lia) eq_refl) as [A B].
  rewrite <- E in A, B. cbn [fst snd Nat.add] in *. repeat split; auto. rewrite A. apply Nat.mod_upper_bound. lia.
Qed.
Lemma absorb_ok' fuel s m d : sp_whole s m -> small (length d) -> length d + 4 <= fuel ->
  exists s', sponge_absorb f fuel s d = Ok s' /\ sp_whole s' (m ++ d).
Proof.
  intros A S F. destruct (whole_inv _ _ A) as (L & _ & I). destruct A as (A3 & A4 & A5). unfold small in S.
  unfold sponge_absorb. rewrite A4, A3, rate8'. rewrite (loop_ok f f_len rb); auto.
  2: { destruct (Nat.eq_dec (sp_idx s) 0); [auto|]. right. left. lia. }
  destruct (fold_left (ab1 f rb) d (sp_state s, sp_idx s)) as [st idx] eqn:E.
  cbn [bind]. eexists; split; [reflexivity|]. unfold sp_whole. cbn [sp_rate sp_squeezing sp_state sp_idx]. repeat split; auto.
  rewrite fold_left_app, <- A5. exact (eq_sym E).
Qed.
(** the padding *)
Lemma kstate_bytes m s : is_bytes m -> (0 < s < 256)%N ->
  fold_left (ab1 f rb) (m ++ pad_bytes rb (length m mod rb) s) ((repeat 0%N 200 : bytes), 0) = (kstate (bits_of m ++ suffix_bits s), 0) /\
  length (kstate (bits_of m ++ suffix_bits s)) = 200.
Proof.
  intros B S. unfold kstate. rewrite padded_bytes by (auto; lia). cbv zeta.
  destruct (pad_bytes_length rb m s rb_pos) as [n Hn]. rewrite Hn, Nat.div_mul by lia.
  pose proof (absorb_n_fold f f_len rb rb_pos rb_200 n (repeat 0%N 200) _ Hn eq_refl) as F. split; [exact F|].
  pose proof (ab_inv f f_len rb ltac:(lia) ltac:(lia) (m ++ pad_bytes rb (length m mod rb) s) (repeat 0%N 200) 0 ltac:(lia) eq_refl) as [_ X].
  rewrite F in X. exact X.
Qed.
Lemma last_ok' s m d : sp_whole s m -> is_bytes m -> (0 < d < 256)%N ->
  exists s', sponge_last f s d = Ok (Some s') /\ sp_drained s' (bits_of m ++ suffix_bits d) 0.
Proof.
  intros A B D. destruct (whole_inv _ _ A) as (L & I & U). destruct A as (A3 & A4 & A5).
  destruct (kstate_bytes m d B D) as [K KL].
  assert (X : exists st, add_byte (sp_state s) d (sp_idx s) = Ok (xin (sp_state s) (sp_idx s) [d]) /\
     add_byte (if N.leb 128 d && (sp_idx s =? rb - 1) then f (xin (sp_state s) (sp_idx s) [d]) else xin (sp_state s) (sp_idx s) [d]) 128 (rb - 1) = Ok st /\
     f st = kstate (bits_of m ++ suffix_bits d)).
  { unfold add_byte at 1. destruct (Nat.ltb_spec (sp_idx s) (length (sp_state s))); [|lia].
    rewrite fold_left_app, <- A5, <- I in K.
    unfold pad_bytes in K. destruct (Nat.eqb_spec (rb - sp_idx s) 1) as [O|O].
    - assert (E1 : sp_idx s = rb - 1) by lia. destruct (N.ltb_spec d 128) as [H1|H1].
      + destruct (N.leb_spec 128 d); [lia|]. cbn [andb]. eexists. split; [reflexivity|]. split.
        { unfold add_byte. rewrite xin_length. destruct (Nat.ltb_spec (rb - 1) (length (sp_state s))); [reflexivity|lia]. }
        rewrite (ab_full f rb rb_pos rb_200) in K by (cbn [length]; lia). apply (f_equal fst) in K. cbn [fst] in K. rewrite <- K, E1.
        rewrite xin_twice. reflexivity.
      + destruct (N.leb_spec 128 d); [|lia]. destruct (Nat.eqb_spec (sp_idx s) (rb - 1)); [|lia]. cbn [andb]. eexists. split; [reflexivity|]. split.
        { unfold add_byte. rewrite f_len by (rewrite xin_length; assumption). destruct (Nat.ltb_spec (rb - 1) 200); [reflexivity|lia]. }
        rewrite fold_left_app, (ab_full f rb rb_pos rb_200 [d]) in K by (cbn [length]; lia).
        rewrite (ab_full f rb rb_pos rb_200) in K by (rewrite ?app_length, ?repeat_length; cbn [length]; lia).
        apply (f_equal fst) in K. cbn [fst] in K. rewrite <- K. rewrite xin_app, xin_zeros, repeat_length. reflexivity.
    - assert (E0 : N.leb 128 d && (sp_idx s =? rb - 1) = false).
      { destruct (Nat.eqb_spec (sp_idx s) (rb - 1)); [lia|]. apply andb_false_r. }
      rewrite E0. eexists. split; [reflexivity|]. split.
      { unfold add_byte. rewrite xin_length. destruct (Nat.ltb_spec (rb - 1) (length (sp_state s))); [reflexivity|lia]. }
      rewrite (ab_full f rb rb_pos rb_200) in K.
      2: assumption.
      2: { cbn [app length]. rewrite app_length, repeat_length. cbn [length]. lia. }
      apply (f_equal fst) in K. cbn [fst app] in K. rewrite <- K.
      rewrite (xin_cons (sp_state s) (sp_idx s) d (repeat 0%N (rb - sp_idx s - 2) ++ [128%N])), xin_app, xin_zeros. rewrite repeat_length.
      do 2 f_equal. lia. }
  destruct X as (st & X1 & X2 & X3).
  unfold sponge_last. rewrite A4, A3, rate8', X1. destruct (N.eqb_spec d 0); [lia|]. cbn [bind]. rewrite X2. cbn [bind].
  eexists. split; [reflexivity|]. unfold sp_drained. cbn [sp_rate sp_squeezing sp_state sp_idx]. repeat split; auto.
  exists 0. repeat split; auto; lia.
Qed.
Lemma drained_inv s n off : sp_drained s n off -> length (sp_state s) = 200 /\ sp_idx s <= rb.
Proof. intros (_ & _ & L & q & _ & I & E). split; auto. rewrite E. apply iter_len; auto. Qed.
Lemma squeeze_ok' fuel s n off need : sp_drained s n off -> small need -> need + 4 <= fuel ->
  exists s', sponge_squeeze f fuel s need = Ok (outputs (keccak_byte f rb n) off need, s') /\ sp_drained s' n (off + need).
Proof.
  intros A S F. destruct (drained_inv _ _ _ A) as [L I]. destruct A as (A3 & A4 & A5 & A6). unfold small in S.
  unfold sponge_squeeze. rewrite A4. cbn [bind]. rewrite A3, rate8'. rewrite (sloop_ok f f_len rb); auto; try lia.
  2: { destruct (Nat.eq_dec (sp_idx s) rb); [auto|]. right. left. lia. }
  destruct (pull_stream f rb ltac:(lia) ltac:(lia) _ need off _ _ A6) as (st' & idx' & P & Q).
  rewrite P. cbn [bind]. eexists; split; [reflexivity|]. unfold sp_drained. cbn. auto.
Qed.

(** ** the calls *)
Lemma mod8 n : (N.to_nat n) mod 8 = N.to_nat (n mod 8).
Proof. rewrite N2Nat.inj_mod. reflexivity. Qed.
Lemma div8 n : (N.to_nat n) / 8 = N.to_nat (n / 8).
Proof. rewrite N2Nat.inj_div. reflexivity. Qed.
Lemma firstn_is_bytes n (d : bytes) : is_bytes d -> is_bytes (firstn n d).
Proof. intros H. rewrite <- (firstn_skipn n d) in H. apply Forall_app in H. tauto. Qed.

Lemma update_whole fuel k m s d n : whole k m s -> is_bytes d -> (n mod 8 = 0)%N -> (n <= 8 * N.of_nat (length d))%N ->
  (n / 8 + 200 <= 2 ^ 32)%N -> N.to_nat (n / 8) + 4 <= fuel ->
  exists k' m', kb_update f fuel k d n = Ok (Success, k') /\ whole k' m' s /\ kh_fixed k' = kh_fixed k /\
    bits_of m' = bits_of m ++ firstn (N.to_nat n) (bits_of d).
Proof.
  intros (W1 & W2 & W3 & W4) B Z L S F. unfold kb_update. destruct W4 as (A3 & A4 & A5). rewrite A4.
  assert (LE : (n / 8 <= N.of_nat (length d))%N) by (apply N.div_le_upper_bound; lia).
  destruct (N.ltb_spec (N.of_nat (length d)) (n / 8)); [lia|].
  assert (FL : length (firstn (N.to_nat (n / 8)) d) = N.to_nat (n / 8)) by (rewrite firstn_length; lia).
  destruct (absorb_ok' fuel (kh_sponge k) m (firstn (N.to_nat (n / 8)) d)) as (s' & E & W).
  { repeat split; auto. } { rewrite FL. unfold small. lia. } { lia. }
  rewrite E. cbn [bind]. rewrite Z. cbn [N.eqb]. eexists. exists (m ++ firstn (N.to_nat (n / 8)) d).
  split; [reflexivity|]. split; [|split; [reflexivity|]].
  - repeat split; try apply W; cbn; auto; try lia. apply Forall_app. split; [assumption|]. apply firstn_is_bytes; assumption.
  - rewrite bits_app. f_equal. rewrite <- firstn_bits. f_equal.
    pose proof (N.div_mod n 8 ltac:(discriminate)). lia.
Qed.
Lemma update_bits fuel k m s d n : whole k m s -> is_bytes d -> (n mod 8 <> 0)%N -> (n <= 8 * N.of_nat (length d))%N ->
  (n / 8 + 200 <= 2 ^ 32)%N -> N.to_nat (n / 8) + 5 <= fuel ->
  exists k' m' s', kb_update f fuel k d n = Ok (Success, k') /\ whole k' m' s' /\ kh_fixed k' = kh_fixed k /\
    bits_of m' ++ suffix_bits s' = bits_of m ++ firstn (N.to_nat n) (bits_of d) ++ suffix_bits s.
Proof.
  intros (W1 & W2 & W3 & W4) B Z L S F. unfold kb_update. pose proof W4 as (A3 & A4 & A5). rewrite A4.
  assert (LE : (n / 8 < N.of_nat (length d))%N).
  { pose proof (N.div_mod n 8 ltac:(discriminate)) as DM. revert Z L DM. clear. generalize (n / 8)%N (n mod 8)%N. intros; lia. }
  destruct (N.ltb_spec (N.of_nat (length d)) (n / 8)); [lia|].
  assert (FL : length (firstn (N.to_nat (n / 8)) d) = N.to_nat (n / 8)) by (rewrite firstn_length; lia).
  destruct (absorb_ok' fuel (kh_sponge k) m (firstn (N.to_nat (n / 8)) d)) as (s1 & E & W).
  { assumption. } { rewrite FL. unfold small. lia. } { lia. }
  rewrite E. cbn [bind]. destruct (N.eqb_spec (n mod 8) 0); [contradiction|].
  destruct (nth_error d (N.to_nat (n / 8))) as [last|] eqn:NE.
  2: { apply nth_error_None in NE. lia. }
  pose proof (N.mod_lt n 8 ltac:(discriminate)) as R8.
  assert (B1 : is_bytes (m ++ firstn (N.to_nat (n / 8)) d)).
  { apply Forall_app. split; [assumption|]. apply firstn_is_bytes; assumption. }
  assert (SP : firstn (N.to_nat n) (bits_of d) = bits_of (firstn (N.to_nat (n / 8)) d) ++ firstn (N.to_nat (n mod 8)) (bits_of_byte last)).
  { rewrite (firstn_split (N.to_nat n) d last) by (rewrite div8; exact NE). rewrite div8, mod8. reflexivity. }
  rewrite SP. rewrite W3. assert (RR : (0 < n mod 8 < 8)%N) by (split; [apply N.neq_0_lt_0; assumption|exact R8]). pose proof (join (n mod 8) last s RR W2) as J. unfold join_ok in J. cbv zeta in J |- *.
  destruct (N.eqb (N.land (last_bytes (n mod 8) last s) 0xFF00) 0).
  - apply andb_prop in J. destruct J as [J J3]. apply andb_prop in J. destruct J as [J1 J2].
    apply beqs_ok in J1. apply negb_true_iff, N.eqb_neq in J2. apply N.ltb_lt in J3.
    eexists. exists (m ++ firstn (N.to_nat (n / 8)) d). eexists. split; [reflexivity|]. split; [|split; [reflexivity|]].
    + split; [assumption|]. split; [split; [apply N.neq_0_lt_0; exact J2|exact J3]|split; [reflexivity|exact W]].
    + rewrite J1, bits_app, <- !app_assoc. reflexivity.
  - apply andb_prop in J. destruct J as [J J4]. apply andb_prop in J. destruct J as [J J3]. apply andb_prop in J. destruct J as [J1 J2].
    apply beqs_ok in J1. apply negb_true_iff, N.eqb_neq in J2. apply N.ltb_lt in J3. apply N.ltb_lt in J4.
    set (one := N.land (last_bytes (n mod 8) last s) 255) in *.
    destruct (absorb_ok' fuel s1 _ [one] W) as (s2 & E2 & W').
    { unfold small. cbn. lia. } { cbn. lia. }
    rewrite E2. cbn [bind]. eexists. exists ((m ++ firstn (N.to_nat (n / 8)) d) ++ [one]). exists (N.land (N.shiftr (last_bytes (n mod 8) last s) 8) 0xFF).
    split; [reflexivity|]. split; [|split; [reflexivity|]].
    + split; [|split; [|split; [reflexivity|exact W']]]. { apply Forall_app. split; [assumption|]. repeat constructor. exact J4. } split; [apply N.neq_0_lt_0; exact J2|exact J3].
    + rewrite !bits_app. assert (X : bits_of [one] = bits_of_byte one) by (apply app_nil_r). rewrite X, <- !app_assoc, J1. reflexivity.
Qed.
Lemma final_ok' fuel k m s : whole k m s -> small (kh_fixed k / 8) -> kh_fixed k / 8 + 4 <= fuel ->
  exists k', kb_final f fuel k = Ok (Success, outputs (keccak_byte f rb (bits_of m ++ suffix_bits s)) 0 (kh_fixed k / 8), k') /\
    drained k' (bits_of m ++ suffix_bits s) (kh_fixed k / 8).
Proof.
  intros (W1 & W2 & W3 & W4) S F. unfold kb_final. rewrite W3.
  destruct (last_ok' _ m s W4 W1 W2) as (s1 & E & D). rewrite E. cbn [bind].
  destruct (squeeze_ok' fuel s1 _ 0 (kh_fixed k / 8) D S F) as (s2 & E2 & D2). rewrite E2. cbn [bind].
  eexists. split; [reflexivity|]. exact D2.
Qed.
Lemma squeeze_call fuel k n off q : drained k n off -> (q mod 8 = 0)%N -> (q / 8 + 200 <= 2 ^ 32)%N -> N.to_nat (q / 8) + 4 <= fuel ->
  exists k', kb_squeeze f fuel k q = Ok (Success, outputs (keccak_byte f rb n) off (N.to_nat (q / 8)), k') /\
    drained k' n (off + N.to_nat (q / 8)).
Proof.
  intros D Z S F. unfold kb_squeeze. rewrite Z. cbn [N.eqb negb].
  destruct (squeeze_ok' fuel _ n off (N.to_nat (q / 8)) D ltac:(unfold small; lia) F) as (s1 & E & D1). rewrite E. cbn [bind].
  eexists. split; [reflexivity|]. exact D1.
Qed.
(** output before Final: no suffix *)
Lemma early_call fuel k m s q : whole k m s -> (q mod 8 = 0)%N -> (q / 8 + 200 <= 2 ^ 32)%N -> N.to_nat (q / 8) + 4 <= fuel ->
  exists k', kb_squeeze f fuel k q = Ok (Success, outputs (keccak_byte f rb (bits_of m)) 0 (N.to_nat (q / 8)), k') /\
    drained k' (bits_of m) (N.to_nat (q / 8)).
Proof.
  intros (W1 & W2 & W3 & W4) Z S F. unfold kb_squeeze. rewrite Z. cbn [N.eqb negb].
  destruct (last_ok' _ m 1 W4 W1 ltac:(lia)) as (s1 & E & D). change (suffix_bits 1) with (@nil bool) in D. rewrite app_nil_r in D.
  destruct (squeeze_ok' fuel s1 _ 0 (N.to_nat (q / 8)) D ltac:(unfold small; lia) F) as (s2 & E2 & D2).
  assert (X : sponge_squeeze f fuel (kh_sponge k) (N.to_nat (q / 8)) = sponge_squeeze f fuel s1 (N.to_nat (q / 8))).
  { unfold sponge_squeeze. destruct W4 as (_ & A4 & _). destruct D as (_ & D4 & _). rewrite A4, D4, E. reflexivity. }
  rewrite X, E2. cbn [bind]. eexists. split; [reflexivity|]. exact D2.
Qed.
Lemma late_update' fuel k n off d q : drained k n off -> kb_update f fuel k d q = Ok (Fail, k).
Proof. intros (_ & A & _). unfold kb_update. rewrite A. reflexivity. Qed.
Lemma late_final' fuel k n off : drained k n off -> kb_final f fuel k = Ok (Fail, [], k).
Proof.
  intros (_ & A & _). unfold kb_final, sponge_last. rewrite A. destruct (N.eqb (kh_suffix k) 0); reflexivity.
Qed.
End Rate.
Lemma odd_squeeze fuel k q : (q mod 8 <> 0)%N -> kb_squeeze f fuel k q = Ok (Fail, [], k).
Proof. intros H. unfold kb_squeeze. destruct (N.eqb_spec (q mod 8) 0); [contradiction|reflexivity]. Qed.
End Run.
