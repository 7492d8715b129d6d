(** From bytes to bits: the permutation of keccak/opt64 on 200 bytes, and SHAKE of SpongeSpec, are those of FIPS 202. *)
From Coq Require Import Arith NArith List Bool Lia.
From Verif Require Import Prelude SpongeModel SpongeSpec KeccakModel KeccakSpec KeccakFacts.
Import ListNotations.

Lemma bit_low_high b v z : (b < 256)%N -> bit (b + 256 * v) z = if z <? 8 then bit b z else bit v (z - 8).
Proof.
  intros Hb. unfold bit. destruct (Nat.ltb_spec z 8) as [L|L].
  - rewrite <- (N.mod_pow2_bits_low (b + 256 * v) 8) by lia. rewrite <- (N.mod_pow2_bits_low b 8) by lia. change (2 ^ 8)%N with 256%N. rewrite (N.mul_comm 256), N.mod_add by discriminate. reflexivity.
  - replace (N.of_nat z) with (N.of_nat (z - 8) + 8)%N by lia. rewrite <- N.div_pow2_bits. change (2 ^ 8)%N with 256%N. rewrite (N.mul_comm 256), N.div_add by discriminate. rewrite N.div_small by exact Hb. reflexivity.
Qed.
Lemma bit_zero z : bit 0 z = false.
Proof. apply N.bits_0. Qed.
Lemma bit_word l : is_bytes l -> forall z, bit (le_word l) z = bit (nth (z / 8) l 0%N) (z mod 8).
Proof.
  induction l as [|b l IH]; intros Hl z; cbn [le_word]; [destruct (z / 8); cbn [nth]; rewrite !bit_zero; reflexivity|].
  apply Forall_cons_iff in Hl. destruct Hl as [Hb Hl]. rewrite bit_low_high by exact Hb. destruct (Nat.ltb_spec z 8) as [L|L].
  - rewrite Nat.div_small, Nat.mod_small by exact L. reflexivity.
  - rewrite (IH Hl). replace z with (z - 8 + 1 * 8) at 3 4 by lia. rewrite Nat.div_add, Nat.mod_add by discriminate. replace ((z - 8) / 8 + 1) with (S ((z - 8) / 8)) by lia. reflexivity.
Qed.
Lemma bit_le_bytes n : forall v k j, k < n -> j < 8 -> bit (nth k (le_bytes n v) 0%N) j = bit v (8 * k + j).
Proof.
  induction n; intros v k j Hk Hj; [lia|]. cbn [le_bytes]. destruct k as [|k].
  - cbn [nth]. unfold bit. change 256%N with (2 ^ 8)%N. rewrite N.mod_pow2_bits_low by lia. reflexivity.
  - cbn [nth]. rewrite IHn by lia. unfold bit. change 256%N with (2 ^ 8)%N. rewrite N.div_pow2_bits. f_equal. lia.
Qed.
Lemma nth_chunks {A B} (f : A -> list B) k d dA : forall l i j, Forall (fun a => length (f a) = k) l -> j < k -> i < length l ->
  nth (k * i + j) (concat (map f l)) d = nth j (f (nth i l dA)) d.
Proof.
  induction l as [|a l IH]; intros i j F Hj Hi; [cbn in Hi; lia|]. apply Forall_cons_iff in F. destruct F as [Fa F]. cbn [map concat]. destruct i as [|i].
  - rewrite app_nth1 by lia. rewrite Nat.mul_0_r. reflexivity.
  - rewrite app_nth2 by lia. cbn [nth]. rewrite <- (IH i j F Hj) by (cbn [length] in Hi; lia). f_equal. lia.
Qed.
Lemma byte_bits_length b : length (byte_bits b) = 8.
Proof. unfold byte_bits. rewrite map_length, seq_length. reflexivity. Qed.
Lemma concat_length {A B} (f : A -> list B) k l : Forall (fun a => length (f a) = k) l -> length (concat (map f l)) = k * length l.
Proof. induction 1 as [|a l Ha Hl IH]; cbn [map concat length]; [lia|]. rewrite app_length, IH, Ha. lia. Qed.
Lemma all_bits (l : list N) : Forall (fun b => length (byte_bits b) = 8) l.
Proof. apply Forall_forall. intros. apply byte_bits_length. Qed.
Lemma bits_length l : length (bits_of l) = 8 * length l.
Proof. apply concat_length. apply all_bits. Qed.
Lemma byte_bits_nth b j : j < 8 -> nth j (byte_bits b) false = bit b j.
Proof. intros Hj. unfold byte_bits. rewrite (nth_indep _ false (N.testbit b (N.of_nat 0))) by (rewrite map_length, seq_length; exact Hj). rewrite (map_nth (fun i => N.testbit b (N.of_nat i))), seq_nth by exact Hj. reflexivity. Qed.
Lemma bits_nth l i j : j < 8 -> i < length l -> nth (8 * i + j) (bits_of l) false = bit (nth i l 0%N) j.
Proof. intros Hj Hi. unfold bits_of. rewrite (nth_chunks byte_bits 8 false 0%N); [apply byte_bits_nth; exact Hj|apply all_bits|exact Hj|exact Hi]. Qed.
Lemma bits_nth' l i : i < 8 * length l -> nth i (bits_of l) false = bit (nth (i / 8) l 0%N) (i mod 8).
Proof.
  intros Hi. pose proof (Nat.div_mod i 8 ltac:(discriminate)) as E. pose proof (Nat.mod_upper_bound i 8 ltac:(discriminate)). rewrite E at 1. apply bits_nth; [assumption|]. apply Nat.div_lt_upper_bound; lia.
Qed.
Lemma bits_app a b : bits_of (a ++ b) = bits_of a ++ bits_of b.
Proof. unfold bits_of. rewrite map_app, concat_app. reflexivity. Qed.

(** *** the permutation *)
Lemma lane_list_state st : lane_list (copy_from_state st) = map (lane st) (seq 0 25).
Proof. reflexivity. Qed.
Lemma nth_first {A} (l : list A) d : forall k i, i < k -> nth i (firstn k l) d = nth i l d.
Proof. induction l; intros k i Hi; destruct k; try lia; cbn [firstn]; [reflexivity|]. destruct i; [reflexivity|]. cbn [nth]. apply IHl. lia. Qed.
Lemma nth_skip' {A} (l : list A) d : forall o i, nth i (skipn o l) d = nth (o + i) l d.
Proof. induction l; intros o i; destruct o; try reflexivity; cbn [skipn Nat.add nth]; [destruct i; reflexivity|apply IHl]. Qed.
Lemma slice_nth (l : bytes) o k i : i < k -> nth i (slice l o k) 0%N = nth (o + i) l 0%N.
Proof. intros Hi. unfold slice. rewrite nth_first by exact Hi. apply nth_skip'. Qed.
Lemma slice_bytes (l : bytes) o k : is_bytes l -> is_bytes (slice l o k).
Proof.
  intros H. unfold slice, is_bytes in *. rewrite Forall_forall in *. intros x Hx. apply H. assert (X : In x (skipn o l)) by (rewrite <- (firstn_skipn k (skipn o l)); apply in_or_app; left; exact Hx).
  rewrite <- (firstn_skipn o l). apply in_or_app. right. exact X.
Qed.
Lemma lane_bit st i z : is_bytes st -> z < 64 -> bit (lane st i) z = bit (nth (8 * i + z / 8) st 0%N) (z mod 8).
Proof.
  intros H Hz. unfold lane. rewrite bit_word by (apply slice_bytes; exact H). rewrite slice_nth; [reflexivity|]. apply Nat.div_lt_upper_bound; lia.
Qed.
Lemma lane_b64 st i : is_bytes st -> b64 (lane st i).
Proof.
  intros H. unfold b64, lane. eapply N.lt_le_trans; [apply le_word_lt; apply slice_bytes; exact H|]. change (2 ^ 64)%N with (256 ^ 8)%N. apply N.pow_le_mono_r; [discriminate|].
  unfold slice. rewrite firstn_length. lia.
Qed.
Lemma from_rep (st : bytes) : is_bytes st -> length st = 200 -> rep (copy_from_state st) (to_state (bits_of st)).
Proof.
  intros H L. split.
  - rewrite lane_list_state. apply Forall_forall. intros a Ha. apply in_map_iff in Ha. destruct Ha as (i & <- & _). apply lane_b64. exact H.
  - intros x y z Hx Hy Hz. rewrite lane_list_state. rewrite (nth_indep _ 0%N (lane st 0)) by (rewrite map_length, seq_length; lia). rewrite map_nth, seq_nth by lia.
    cbn [Nat.add]. rewrite lane_bit by assumption. unfold to_state. pose proof (Nat.div_mod z 8 ltac:(discriminate)) as E. pose proof (Nat.mod_upper_bound z 8 ltac:(discriminate)).
    replace (w * (5 * y + x) + z) with (8 * (8 * (5 * y + x) + z / 8) + z mod 8) by (unfold w; lia). rewrite bits_nth; [reflexivity|assumption|]. rewrite L.
    assert (z / 8 < 8) by (apply Nat.div_lt_upper_bound; lia). lia.
Qed.
Lemma to_state_list X : copy_to_state X = concat (map (le_bytes 8) (lane_list X)).
Proof. reflexivity. Qed.
Lemma lane_list_length X : length (lane_list X) = 25.
Proof. reflexivity. Qed.
Lemma to_length X : length (copy_to_state X) = 200.
Proof. rewrite to_state_list. refine (eq_trans (concat_length (le_bytes 8) 8 (lane_list X) _) _); [|reflexivity]. apply Forall_forall. intros. apply le_bytes_length. Qed.
Lemma to_bytes_ok X : is_bytes (copy_to_state X).
Proof.
  rewrite to_state_list. unfold is_bytes. apply Forall_forall. intros b Hb. apply in_concat in Hb. destruct Hb as (c & Hc & Hb). apply in_map_iff in Hc. destruct Hc as (v & <- & _).
  pose proof (le_bytes_is_bytes 8 v) as Q. unfold is_bytes in Q. rewrite Forall_forall in Q. apply Q. exact Hb.
Qed.
Lemma to_bits X S : rep X S -> bits_of (copy_to_state X) = to_string S.
Proof.
  intros [B R]. apply (nth_ext _ _ false false).
  - rewrite bits_length, to_length. unfold to_string. rewrite map_length, seq_length. reflexivity.
  - rewrite bits_length, to_length. intros i Hi. unfold to_string.
    rewrite (nth_indep (map _ _) false ((fun i => S ((i / w) mod 5) (i / w / 5) (i mod w)) 0)) by (rewrite map_length, seq_length; exact Hi). rewrite (map_nth (fun i => S ((i / w) mod 5) (i / w / 5) (i mod w))), seq_nth by exact Hi.
    cbn [Nat.add]. rewrite bits_nth' by (rewrite to_length; exact Hi). rewrite to_state_list.
    pose proof (Nat.div_mod i w ltac:(discriminate)) as E. pose proof (Nat.mod_upper_bound i w ltac:(discriminate)) as U. assert (Q : i / w < 25) by (apply Nat.div_lt_upper_bound; [discriminate|unfold w; lia]).
    pose proof (Nat.div_mod (i / w) 5 ltac:(discriminate)) as E5. pose proof (Nat.mod_upper_bound (i / w) 5 ltac:(discriminate)) as U5. assert (Q5 : i / w / 5 < 5) by (apply Nat.div_lt_upper_bound; lia).
    rewrite <- R by (assumption || (unfold w in *; lia)).
    replace (5 * (i / w / 5) + (i / w) mod 5) with (i / w) by lia.
    pose proof (Nat.div_mod (i mod w) 8 ltac:(discriminate)) as E8. pose proof (Nat.mod_upper_bound (i mod w) 8 ltac:(discriminate)) as U8.
    assert (Q8 : i mod w / 8 < 8) by (apply Nat.div_lt_upper_bound; [discriminate|unfold w in *; lia]).
    assert (D8 : i / 8 = 8 * (i / w) + i mod w / 8). { symmetry. apply (Nat.div_unique i 8 _ ((i mod w) mod 8)); [exact U8|]. unfold w in *. lia. }
    assert (M8 : i mod 8 = (i mod w) mod 8). { symmetry. apply (Nat.mod_unique i 8 (8 * (i / w) + i mod w / 8)); [exact U8|]. unfold w in *. lia. }
    rewrite D8, M8. etransitivity; [apply (f_equal (fun b => bit b _)); refine (nth_chunks (le_bytes 8) 8 0%N 0%N (lane_list X) (i / w) (i mod w / 8) _ _ _)|]; [apply Forall_forall; intros; apply le_bytes_length|exact Q8|rewrite lane_list_length; exact Q|].
    rewrite bit_le_bytes by assumption. f_equal. lia.
Qed.
Theorem permute_bits (st : bytes) : is_bytes st -> length st = 200 -> bits_of (permute_24rounds st) = keccak_f (bits_of st).
Proof. intros H L. unfold permute_24rounds, keccak_f. apply to_bits. apply rounds24_rep. apply from_rep; assumption. Qed.
Lemma permute_length st : length (permute_24rounds st) = 200.
Proof. apply to_length. Qed.
Lemma permute_bytes st : is_bytes (permute_24rounds st).
Proof. apply to_bytes_ok. Qed.
