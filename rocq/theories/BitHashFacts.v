(** Facts about BitHashModel and BitHashSpec *)
From Coq Require Import Arith NArith List Bool Lia.
From Verif Require Import Prelude SpongeModel SpongeSpec SpongeFacts BitHashModel BitHashSpec.
Import ListNotations.

(** ** bits and bytes *)
Lemma byte_cases (P : N -> Prop) (t : N -> bool) : (forall b, t b = true -> P b) -> forallb t (map N.of_nat (seq 0 256)) = true ->
  forall b, (b < 256)%N -> P b.
Proof.
  intros H A b L. apply H. rewrite forallb_forall in A. apply A. rewrite <- (N2Nat.id b). apply in_map, in_seq. lia.
Qed.
Fixpoint beqs (a b : list bool) : bool :=
  match a, b with [], [] => true | x :: a, y :: b => Bool.eqb x y && beqs a b | _, _ => false end.
Lemma beqs_ok : forall a b, beqs a b = true -> a = b.
Proof.
  induction a as [|x a IH]; intros [|y b] H; try discriminate; auto. cbn in H. apply andb_prop in H. destruct H as [H1 H2].
  apply eqb_prop in H1. subst. f_equal. auto.
Qed.
Lemma byte_length b : length (bits_of_byte b) = 8.
Proof. unfold KeccakSpec.byte_bits. rewrite map_length, seq_length. reflexivity. Qed.
Lemma bits_length d : length (bits_of d) = 8 * length d.
Proof. unfold KeccakSpec.bits_of. induction d as [|b d IH]; cbn [map concat length]; [reflexivity|]. rewrite app_length, byte_length, IH. lia. Qed.
Lemma bits_app a b : bits_of (a ++ b) = bits_of a ++ bits_of b.
Proof. unfold KeccakSpec.bits_of. rewrite map_app, concat_app. reflexivity. Qed.
Lemma bits_zero n : bits_of (repeat 0%N n) = repeat false (8 * n).
Proof.
  induction n as [|n IH]; [reflexivity|]. cbn [repeat]. change (bits_of (0%N :: repeat 0%N n)) with (bits_of_byte 0 ++ bits_of (repeat 0%N n)).
  rewrite IH. replace (8 * S n) with (8 + 8 * n) by lia. rewrite repeat_app. reflexivity.
Qed.
Lemma byte_back b : (b < 256)%N -> byte_of_bits (bits_of_byte b) = b.
Proof.
  apply (byte_cases (fun b => byte_of_bits (bits_of_byte b) = b) (fun b => N.eqb (byte_of_bits (bits_of_byte b)) b)).
  - intros x. apply N.eqb_eq.
  - vm_compute. reflexivity.
Qed.
Lemma pack_bits d : is_bytes d -> pack (length d) (bits_of d) = d.
Proof.
  induction d as [|b d IH]; intros H; [reflexivity|]. inversion H; subst. cbn [length pack].
  change (bits_of (b :: d)) with (bits_of_byte b ++ bits_of d).
  rewrite firstn_app, byte_length, firstn_all2 by (rewrite byte_length; lia). rewrite Nat.sub_diag. cbn [firstn]. rewrite app_nil_r.
  rewrite skipn_app, byte_length, skipn_all2 by (rewrite byte_length; lia). rewrite Nat.sub_diag. cbn [skipn app].
  rewrite byte_back by assumption. f_equal. auto.
Qed.

(** ** the delimited suffix *)
Lemma log_small s : (s < 256)%N -> N.to_nat (N.log2 s) <= 7.
Proof.
  intros H. destruct (N.eq_dec s 0) as [->|Z]; [cbn; lia|]. assert (N.log2 s < 8)%N by (apply N.log2_lt_pow2; [lia|exact H]). lia.
Qed.
Lemma suffix_length s : (s < 256)%N -> length (suffix_bits s) = N.to_nat (N.log2 s).
Proof. intros H. pose proof (log_small s H). unfold suffix_bits. rewrite firstn_length, byte_length. lia. Qed.
Lemma suffix_byte s : (s < 256)%N -> s <> 0%N -> bits_of_byte s = suffix_bits s ++ [true] ++ repeat false (7 - N.to_nat (N.log2 s)).
Proof.
  intros H. revert s H.
  apply (byte_cases (fun s => s <> 0%N -> bits_of_byte s = suffix_bits s ++ [true] ++ repeat false (7 - N.to_nat (N.log2 s)))
    (fun s => N.eqb s 0 || beqs (bits_of_byte s) (suffix_bits s ++ [true] ++ repeat false (7 - N.to_nat (N.log2 s))))).
  - intros s H Z. apply orb_prop in H. destruct H as [H|H]; [apply N.eqb_eq in H; contradiction|]. apply beqs_ok. exact H.
  - vm_compute. reflexivity.
Qed.
Lemma suffix_byte_end s : (s < 128)%N -> s <> 0%N ->
  N.to_nat (N.log2 s) <= 6 /\ bits_of_byte (N.lxor s 128) = suffix_bits s ++ [true] ++ repeat false (6 - N.to_nat (N.log2 s)) ++ [true].
Proof.
  intros H Z. split.
  - assert (N.log2 s < 7)%N by (apply N.log2_lt_pow2; [lia|exact H]). lia.
  - assert (L : (s < 256)%N) by lia. revert s L H Z.
    apply (byte_cases (fun s => (s < 128)%N -> s <> 0%N -> bits_of_byte (N.lxor s 128) = suffix_bits s ++ [true] ++ repeat false (6 - N.to_nat (N.log2 s)) ++ [true])
      (fun s => N.eqb s 0 || N.leb 128 s || beqs (bits_of_byte (N.lxor s 128)) (suffix_bits s ++ [true] ++ repeat false (6 - N.to_nat (N.log2 s)) ++ [true]))).
    + intros s H L Z. apply orb_prop in H. destruct H as [H|H]; [|apply beqs_ok; exact H].
      apply orb_prop in H. destruct H as [H|H]; [apply N.eqb_eq in H; contradiction|]. apply N.leb_le in H. lia.
    + vm_compute. reflexivity.
Qed.
Lemma suffix_high s : (128 <= s < 256)%N -> N.to_nat (N.log2 s) = 7.
Proof. intros H. assert (N.log2 s = 7)%N as -> by (apply N.log2_unique; [lia|]; cbn; lia). reflexivity. Qed.
Lemma lxor128 s : (s < 256)%N -> (N.lxor s 128 < 256)%N.
Proof.
  apply (byte_cases (fun s => (N.lxor s 128 < 256)%N) (fun s => N.ltb (N.lxor s 128) 256)).
  - intros b. apply N.ltb_lt.
  - vm_compute. reflexivity.
Qed.

(** joining r message bits and a suffix *)
Definition join_ok (r last s : N) : bool :=
  let two := last_bytes r last s in
  let n := firstn (N.to_nat r) (bits_of_byte last) ++ suffix_bits s in
  if N.eqb (N.land two 0xFF00) 0
  then beqs (suffix_bits (N.land two 0xFF)) n && negb (N.eqb (N.land two 0xFF) 0) && N.ltb (N.land two 0xFF) 256
  else beqs (bits_of_byte (N.land two 0xFF) ++ suffix_bits (N.land (N.shiftr two 8) 0xFF)) n && negb (N.eqb (N.land (N.shiftr two 8) 0xFF) 0)
       && N.ltb (N.land (N.shiftr two 8) 0xFF) 256 && N.ltb (N.land two 0xFF) 256.
Lemma join_all : forallb (fun r => forallb (fun last => forallb (fun s => join_ok (N.of_nat r) (N.of_nat last) (N.of_nat s))
  (seq 1 255)) (seq 0 (Nat.pow 2 r))) (seq 1 7) = true.
Proof. vm_compute. reflexivity. Qed.
Lemma low_bits r last s : (0 < r < 8)%N -> join_ok r last s = join_ok r (last mod 2 ^ r) s.
Proof.
  intros R. unfold join_ok.
  assert (E : last_bytes r (last mod 2 ^ r) s = last_bytes r last s).
  { unfold last_bytes. f_equal. rewrite N.shiftl_1_l, N.sub_1_r, <- N.ones_equiv. rewrite !N.land_ones. apply N.mod_mod.
    apply N.pow_nonzero. discriminate. }
  assert (F : firstn (N.to_nat r) (bits_of_byte (last mod 2 ^ r)) = firstn (N.to_nat r) (bits_of_byte last)).
  { unfold KeccakSpec.byte_bits. rewrite !firstn_map. apply map_ext_in. intros i I.
    assert (L : i < N.to_nat r).
    { revert I. clear. generalize (N.to_nat r). intros q I.
      assert (firstn q (seq 0 8) = seq 0 (Nat.min q 8)) as X by (do 9 (destruct q as [|q]; [reflexivity|]); reflexivity).
      rewrite X in I. apply in_seq in I. lia. }
    rewrite N.mod_pow2_bits_low by lia. reflexivity. }
  rewrite E, F. reflexivity.
Qed.
Lemma join r last s : (0 < r < 8)%N -> (0 < s < 256)%N -> join_ok r last s = true.
Proof.
  intros R S. rewrite low_bits by assumption.
  pose proof join_all as J. rewrite forallb_forall in J. specialize (J (N.to_nat r)).
  assert (I1 : In (N.to_nat r) (seq 1 7)) by (apply in_seq; lia). specialize (J I1). cbv beta in J.
  rewrite forallb_forall in J. specialize (J (N.to_nat (last mod 2 ^ r))).
  assert (B : (last mod 2 ^ r < 2 ^ r)%N) by (apply N.mod_lt, N.pow_nonzero; discriminate).
  assert (I2 : In (N.to_nat (last mod 2 ^ r)) (seq 0 (2 ^ N.to_nat r))).
  { apply in_seq. split; [apply Nat.le_0_l|]. cbn [Nat.add].
    assert (X : N.to_nat (2 ^ r) = 2 ^ N.to_nat r) by (rewrite N2Nat.inj_pow; reflexivity). rewrite <- X.
    revert B. generalize (last mod 2 ^ r)%N (2 ^ r)%N. clear. intros; lia. }
  specialize (J I2). cbv beta in J. rewrite forallb_forall in J. specialize (J (N.to_nat s) ltac:(apply in_seq; lia)).
  rewrite !N2Nat.id in J. exact J.
Qed.

(** ** the padding *)
Definition pad_bytes (rb idx : nat) (s : N) : bytes :=
  if rb - idx =? 1 then (if N.ltb s 128 then [N.lxor s 128] else [s] ++ repeat 0%N (rb - 1) ++ [128%N])
  else [s] ++ repeat 0%N (rb - idx - 2) ++ [128%N].
Lemma bits_128 : bits_of_byte 128 = repeat false 7 ++ [true].
Proof. reflexivity. Qed.
Lemma zeros_mod r m q j : 2 <= r -> m + 2 + j = q * r -> j < r -> (2 * r - m mod r - 2) mod r = j.
Proof.
  intros R E J. destruct (Nat.leb_spec (j + 2) r) as [H|H].
  - assert (M : m mod r = r - 2 - j).
    { symmetry. apply (Nat.mod_unique _ _ (q - 1)); [lia|]. destruct q; [lia|]. cbn [Nat.sub]. rewrite Nat.sub_0_r. nia. }
    rewrite M. symmetry. apply (Nat.mod_unique _ _ 1); lia.
  - assert (M : m mod r = 2 * r - 2 - j).
    { symmetry. apply (Nat.mod_unique _ _ (q - 2)); [lia|]. destruct q as [|[|q]]; [lia|nia|]. cbn [Nat.sub]. rewrite Nat.sub_0_r. nia. }
    rewrite M. symmetry. apply (Nat.mod_unique _ _ 0); lia.
Qed.
Lemma pad_bits rb (m : bytes) s : 1 <= rb -> (0 < s < 256)%N ->
  bits_of m ++ suffix_bits s ++ pad10star1 (8 * rb) (length (bits_of m ++ suffix_bits s)) = bits_of (m ++ pad_bytes rb (length m mod rb) s).
Proof.
  intros R SB. rewrite bits_app. f_equal. rewrite app_length, bits_length, suffix_length by lia.
  pose proof (Nat.mod_upper_bound (length m) rb ltac:(lia)) as U. pose proof (Nat.div_mod (length m) rb ltac:(lia)) as D.
  set (idx := length m mod rb) in *. set (q := length m / rb) in *. pose proof (log_small s ltac:(lia)) as LG.
  unfold pad_bytes, KeccakSpec.pad10s1. destruct (Nat.eqb_spec (rb - idx) 1) as [O|O].
  - destruct (N.ltb_spec s 128) as [L|L].
    + destruct (suffix_byte_end s L ltac:(lia)) as [G E]. unfold KeccakSpec.bits_of. cbn [map concat]. rewrite E, app_nil_r.
      rewrite (zeros_mod (8 * rb) _ (S q) (6 - N.to_nat (N.log2 s))); [reflexivity|lia|nia|lia].
    + rewrite !bits_app, bits_zero. unfold KeccakSpec.bits_of. cbn [map concat]. rewrite !app_nil_r, bits_128.
      rewrite (suffix_byte s) by lia. rewrite suffix_high by lia. cbn [Nat.sub repeat]. rewrite <- !app_assoc. f_equal.
      rewrite (zeros_mod (8 * rb) _ (S (S q)) (8 * (rb - 1) + 7)); [|lia|nia|lia].
      rewrite repeat_app. rewrite <- app_assoc. reflexivity.
  - rewrite !bits_app, bits_zero. unfold KeccakSpec.bits_of. cbn [map concat]. rewrite !app_nil_r, bits_128.
    rewrite (suffix_byte s) by lia. rewrite <- !app_assoc. do 2 f_equal.
    rewrite (zeros_mod (8 * rb) _ (S q) (7 - N.to_nat (N.log2 s) + (8 * (rb - idx - 2) + 7))); [|lia|nia|lia].
    rewrite !repeat_app, <- !app_assoc. reflexivity.
Qed.
Lemma pad_bytes_bytes rb idx s : (s < 256)%N -> is_bytes (pad_bytes rb idx s).
Proof.
  intros S. assert (Z : forall n, is_bytes (repeat 0%N n)).
  { intros n. apply Forall_forall. intros x X. apply repeat_spec in X. subst. reflexivity. }
  unfold pad_bytes. destruct (rb - idx =? 1); [destruct (N.ltb s 128)|].
  - repeat constructor. apply lxor128. assumption.
  - apply Forall_app; split; [repeat constructor; assumption|]. apply Forall_app; split; [apply Z|]. repeat constructor.
  - apply Forall_app; split; [repeat constructor; assumption|]. apply Forall_app; split; [apply Z|]. repeat constructor.
Qed.
Lemma pad_bytes_length rb (m : bytes) s : 1 <= rb -> exists n, length (m ++ pad_bytes rb (length m mod rb) s) = n * rb.
Proof.
  intros R. pose proof (Nat.mod_upper_bound (length m) rb ltac:(lia)) as U. pose proof (Nat.div_mod (length m) rb ltac:(lia)) as D.
  unfold pad_bytes. destruct (Nat.eqb_spec (rb - length m mod rb) 1) as [O|O]; [destruct (N.ltb s 128)|].
  - exists (S (length m / rb)). rewrite app_length. cbn [length]. nia.
  - exists (S (S (length m / rb))). rewrite !app_length, repeat_length. cbn [length]. nia.
  - exists (S (length m / rb)). rewrite !app_length, repeat_length. cbn [length]. nia.
Qed.
Lemma padded_bytes rb (m : bytes) s : 1 <= rb -> (0 < s < 256)%N -> is_bytes m ->
  padded rb (bits_of m ++ suffix_bits s) = m ++ pad_bytes rb (length m mod rb) s.
Proof.
  intros R S B. unfold padded. rewrite <- app_assoc. cbv zeta. rewrite pad_bits by assumption.
  rewrite bits_length, (Nat.mul_comm 8), Nat.div_mul by discriminate. apply pack_bits.
  apply Forall_app. split; [assumption|]. apply pad_bytes_bytes. lia.
Qed.
