(** SHAKE of SpongeSpec with the permutation of keccak/opt64 is SHAKE128 and SHAKE256 of FIPS 202. *)
From Coq Require Import Arith NArith List Bool Lia.
From Verif Require Import Prelude SpongeModel SpongeSpec KeccakModel KeccakSpec KeccakFacts KeccakBytes.
Import ListNotations.

Lemma bits_firstn p R : R <= length p -> bits_of (firstn R p) = firstn (8 * R) (bits_of p).
Proof.
  intros H. assert (E : bits_of p = bits_of (firstn R p) ++ bits_of (skipn R p)) by (rewrite <- bits_app, firstn_skipn; reflexivity).
  rewrite E. assert (L : 8 * R = length (bits_of (firstn R p))) by (rewrite bits_length, firstn_length; lia). rewrite L. rewrite firstn_app, Nat.sub_diag, firstn_all. cbn [firstn]. symmetry. apply app_nil_r.
Qed.
Lemma bits_skipn p R : R <= length p -> bits_of (skipn R p) = skipn (8 * R) (bits_of p).
Proof.
  intros H. assert (E : bits_of p = bits_of (firstn R p) ++ bits_of (skipn R p)) by (rewrite <- bits_app, firstn_skipn; reflexivity).
  rewrite E. assert (L : 8 * R = length (bits_of (firstn R p))) by (rewrite bits_length, firstn_length; lia). rewrite L. rewrite skipn_app, Nat.sub_diag, skipn_all. reflexivity.
Qed.
Lemma bits_zeros n : bits_of (repeat 0%N n) = repeat false (8 * n).
Proof.
  induction n; [reflexivity|]. cbn [repeat]. change (0%N :: repeat 0%N n) with ([0%N] ++ repeat 0%N n). rewrite bits_app, IHn. replace (8 * S n) with (8 + 8 * n) by lia. rewrite repeat_app. reflexivity.
Qed.
Lemma pad_bits R m : 2 <= R -> bits_of (shake_pad R m) = (bits_of m ++ [true; true; true; true]) ++ pad10s1 (8 * R) (length (bits_of m ++ [true; true; true; true])).
Proof.
  intros HR. rewrite app_length, bits_length. cbn [length]. unfold shake_pad, pad10s1.
  pose proof (Nat.mod_upper_bound (length m) R ltac:(lia)) as U. set (k := length m mod R) in *.
  assert (Em : (8 * length m + 4) mod (8 * R) = 8 * k + 4).
  { symmetry. apply (Nat.mod_unique _ _ (length m / R)); [lia|]. pose proof (Nat.div_mod (length m) R ltac:(lia)) as D. fold k in D. rewrite D at 1. lia. }
  rewrite Em. assert (Ej : (2 * (8 * R) - (8 * k + 4) - 2) mod (8 * R) = 8 * (R - k) - 6).
  { symmetry. apply (Nat.mod_unique _ _ 1); lia. }
  rewrite Ej. destruct (Nat.eqb_spec (R - k) 1) as [E1|E1].
  - rewrite E1. change (8 * 1 - 6) with 2. rewrite bits_app, <- app_assoc. reflexivity.
  - rewrite !bits_app, <- app_assoc. f_equal. rewrite bits_zeros. replace (8 * (R - k) - 6) with (3 + (8 * (R - k - 2) + 7)) by lia. rewrite (repeat_app _ 3), (repeat_app _ _ 7). rewrite <- !app_assoc. reflexivity.
Qed.
Lemma pad_length R m : 2 <= R -> exists n, length (shake_pad R m) = n * R /\ 1 <= n.
Proof.
  intros HR. unfold shake_pad. pose proof (Nat.mod_upper_bound (length m) R ltac:(lia)) as U. pose proof (Nat.div_mod (length m) R ltac:(lia)) as D. set (k := length m mod R) in *.
  exists (length m / R + 1). split; [|lia]. destruct (Nat.eqb_spec (R - k) 1) as [E1|E1]; rewrite !app_length, ?repeat_length; cbn [length]; rewrite D at 1; lia.
Qed.
Lemma pad_bytes R m : is_bytes m -> is_bytes (shake_pad R m).
Proof.
  intros H. unfold shake_pad, is_bytes in *. assert (Z : forall n, Forall is_byte (repeat 0%N n)) by (intros n; apply is_bytes_zeros).
  destruct (_ =? 1); repeat (apply Forall_app; split); try assumption; try apply Z; repeat constructor.
Qed.
Lemma xor_block_bits (st b : list N) R : length b = R -> R <= length st -> bits_of (xor_block st b) = xor_bits (bits_of st) (bits_of b ++ repeat false (8 * length st - 8 * R)).
Proof.
  intros Lb HR. assert (LX : length (xor_block st b) = length st) by (unfold xor_block; rewrite map_length, seq_length; reflexivity).
  assert (LY : length (xor_bits (bits_of st) (bits_of b ++ repeat false (8 * length st - 8 * R))) = 8 * length st).
  { unfold xor_bits. rewrite map_length, combine_length, app_length, repeat_length, !bits_length. lia. }
  apply (nth_ext _ _ false false); rewrite bits_length, LX; [symmetry; exact LY|]. intros i Hi.
  rewrite bits_nth' by (rewrite LX; exact Hi). assert (Q : i / 8 < length st) by (apply Nat.div_lt_upper_bound; lia).
  unfold xor_block. rewrite (nth_indep (map _ _) 0%N ((fun i => N.lxor (nth i st 0%N) (nth i b 0%N)) 0)) by (rewrite map_length, seq_length; exact Q).
  rewrite (map_nth (fun i => N.lxor (nth i st 0%N) (nth i b 0%N))), seq_nth by exact Q. cbn [Nat.add]. rewrite bit_lxor.
  unfold xor_bits. rewrite (nth_indep (map _ _) false ((fun p => xorb (fst p) (snd p)) (false, false))) by (fold (xor_bits (bits_of st) (bits_of b ++ repeat false (8 * length st - 8 * R))); rewrite LY; exact Hi).
  rewrite (map_nth (fun p => xorb (fst p) (snd p))). rewrite combine_nth by (rewrite app_length, repeat_length, !bits_length; lia). cbn [fst snd]. f_equal.
  - symmetry. apply bits_nth'. exact Hi.
  - destruct (Nat.ltb_spec i (8 * length b)) as [L|L].
    + rewrite app_nth1 by (rewrite bits_length; exact L). symmetry. apply bits_nth'. exact L.
    + rewrite app_nth2 by (rewrite bits_length; exact L). rewrite nth_repeat. rewrite (nth_overflow b); [apply bit_zero|]. apply Nat.div_le_lower_bound; lia.
Qed.
Lemma xor_block_bytes st b : is_bytes st -> is_bytes b -> is_bytes (xor_block st b).
Proof.
  intros A B. unfold xor_block, is_bytes. apply Forall_forall. intros x Hx. apply in_map_iff in Hx. destruct Hx as (i & <- & _). apply is_byte_lxor; apply is_bytes_nth; assumption.
Qed.
Lemma absorb_bits R : R <= 200 -> forall n st p, is_bytes st -> length st = 200 -> is_bytes p -> n * R <= length p ->
  bits_of (absorb_n permute_24rounds R n st p) = absorb (8 * R) n (bits_of st) (bits_of p) /\ is_bytes (absorb_n permute_24rounds R n st p) /\ length (absorb_n permute_24rounds R n st p) = 200.
Proof.
  intros HR. induction n; intros st p Hs Ls Hp Lp; cbn [absorb_n absorb]; [auto|].
  assert (Hx : is_bytes (xor_block st (firstn R p))) by (apply xor_block_bytes; [exact Hs|apply (is_bytes_slice p 0 R Hp)]).
  assert (Lx : length (xor_block st (firstn R p)) = 200) by (unfold xor_block; rewrite map_length, seq_length; exact Ls).
  assert (Lf : length (firstn R p) = R) by (rewrite firstn_length; lia).
  rewrite <- bits_firstn, <- bits_skipn by lia. replace (repeat false (1600 - 8 * R)) with (repeat false (8 * length st - 8 * R)) by (rewrite Ls; reflexivity). rewrite <- xor_block_bits by (exact Lf || lia).
  rewrite <- permute_bits by assumption. apply IHn.
  - apply permute_bytes.
  - apply permute_length.
  - unfold is_bytes in *. rewrite Forall_forall in *. intros x Hx'. apply Hp. rewrite <- (firstn_skipn R p). apply in_or_app. right. exact Hx'.
  - rewrite skipn_length. lia.
Qed.
Lemma keccak_f_length S : length (keccak_f S) = 1600.
Proof. unfold keccak_f, to_string. rewrite map_length, seq_length. reflexivity. Qed.
Lemma iter_bits q : forall st, is_bytes st -> length st = 200 -> bits_of (Nat.iter q permute_24rounds st) = Nat.iter q keccak_f (bits_of st) /\ is_bytes (Nat.iter q permute_24rounds st) /\ length (Nat.iter q permute_24rounds st) = 200.
Proof.
  induction q; intros st Hs Ls; [auto|]. cbn [Nat.iter]. destruct (IHq st Hs Ls) as (A & B & C). split; [|split; [apply permute_bytes|apply permute_length]].
  change (Nat.iter (S q) permute_24rounds st) with (permute_24rounds (Nat.iter q permute_24rounds st)). change (Nat.iter (S q) keccak_f (bits_of st)) with (keccak_f (Nat.iter q keccak_f (bits_of st))). rewrite <- A. apply permute_bits; assumption.
Qed.
Lemma iter_comm {A} (f : A -> A) n x : Nat.iter n f (f x) = f (Nat.iter n f x).
Proof. induction n; [reflexivity|]. change (Nat.iter (S n) f (f x)) with (f (Nat.iter n f (f x))). rewrite IHn. reflexivity. Qed.
Lemma squeeze_length r : r <= 1600 -> forall n S, length S = 1600 -> length (squeeze r n S) = n * r.
Proof. intros Hr. induction n; intros S L; cbn [squeeze]; [reflexivity|]. rewrite app_length, firstn_length, IHn by apply keccak_f_length. lia. Qed.
Lemma squeeze_nth r : 0 < r <= 1600 -> forall n S i, length S = 1600 -> i < n * r -> nth i (squeeze r n S) false = nth (i mod r) (Nat.iter (i / r) keccak_f S) false.
Proof.
  intros Hr. induction n; intros S i L Hi; [lia|]. cbn [squeeze]. destruct (Nat.ltb_spec i r) as [H|H].
  - rewrite app_nth1 by (rewrite firstn_length; lia). rewrite nth_first by exact H. rewrite Nat.mod_small, Nat.div_small by exact H. reflexivity.
  - rewrite app_nth2 by (rewrite firstn_length; lia). replace (length (firstn r S)) with r by (rewrite firstn_length; lia). rewrite IHn by (try apply keccak_f_length; lia).
    assert (Ei : i = i - r + 1 * r) by lia. assert (E1 : i mod r = (i - r) mod r) by (rewrite Ei at 1; apply Nat.mod_add; lia). assert (E2 : i / r = Datatypes.S ((i - r) / r)) by (rewrite Ei at 1; rewrite Nat.div_add; lia).
    rewrite E1, E2, iter_comm. reflexivity.
Qed.
Lemma shake_bits R m n : 2 <= R <= 200 -> is_bytes m ->
  bits_of (map (shake_byte permute_24rounds R m) (seq 0 n)) = sponge (8 * R) (bits_of m ++ [true; true; true; true]) (8 * n).
Proof.
  intros HR Hm. unfold sponge. rewrite <- pad_bits by lia. destruct (pad_length R m ltac:(lia)) as (k & Lk & Hk).
  assert (Ek : length (bits_of (shake_pad R m)) / (8 * R) = k) by (rewrite bits_length, Lk; replace (8 * (k * R)) with (k * (8 * R)) by lia; apply Nat.div_mul; lia). rewrite Ek.
  destruct (absorb_bits R ltac:(lia) k (repeat 0%N 200) (shake_pad R m) (is_bytes_zeros 200) (repeat_length _ _) (pad_bytes R m Hm) ltac:(lia)) as (A & B & C).
  assert (EA : absorbed permute_24rounds R m = absorb_n permute_24rounds R k (repeat 0%N 200) (shake_pad R m)) by (unfold absorbed; rewrite Lk, Nat.div_mul by lia; reflexivity).
  rewrite bits_zeros in A. change (8 * 200) with 1600 in A. rewrite <- A. rewrite <- EA in *. set (S0 := absorbed permute_24rounds R m) in *.
  assert (L0 : length (bits_of S0) = 1600) by (rewrite bits_length, C; reflexivity).
  pose proof (Nat.div_mod (8 * n) (8 * R) ltac:(lia)) as D. pose proof (Nat.mod_upper_bound (8 * n) (8 * R) ltac:(lia)) as U.
  apply (nth_ext _ _ false false).
  - rewrite bits_length, map_length, seq_length, firstn_length, squeeze_length by (lia || exact L0). apply eq_sym, Nat.min_l. lia.
  - rewrite bits_length, map_length, seq_length. intros i Hi. rewrite nth_first by exact Hi. rewrite squeeze_nth by (lia || exact L0).
    rewrite bits_nth' by (rewrite map_length, seq_length; exact Hi). assert (Q : i / 8 < n) by (apply Nat.div_lt_upper_bound; lia).
    rewrite (nth_indep (map _ _) 0%N (shake_byte permute_24rounds R m 0)) by (rewrite map_length, seq_length; exact Q). rewrite map_nth, seq_nth by exact Q. cbn [Nat.add]. unfold shake_byte. fold S0.
    rewrite Nat.mod_mul_r by lia. rewrite <- Nat.div_div by lia. destruct (iter_bits (i / 8 / R) S0 B C) as (A' & B' & C'). rewrite <- A'.
    replace (i mod 8 + 8 * ((i / 8) mod R)) with (8 * ((i / 8) mod R) + i mod 8) by lia. symmetry. apply bits_nth; [apply Nat.mod_upper_bound; discriminate|]. refine (Nat.lt_le_trans _ R _ _ _); [apply Nat.mod_upper_bound; lia|]. refine (eq_ind_r (fun k => R <= k) _ C'). lia.
Qed.
Lemma shake_is_fips v m n : is_bytes m -> bits_of (map (shake permute_24rounds v m) (seq 0 n)) = (if v then SHAKE128 else SHAKE256) (bits_of m) (8 * n).
Proof.
  intros Hm. unfold shake. destruct v; cbn [shake_rate].
  - rewrite shake_bits by (lia || exact Hm). reflexivity.
  - rewrite shake_bits by (lia || exact Hm). reflexivity.
Qed.
