(** Overwriting bytes *)
From Coq Require Import Arith NArith List Bool Lia.
From Verif Require Import Prelude SpongeModel SpongeFacts KeccakModel KeccakFacts KeccakBytes SnpMem SnpLayout SnpSim Opt64Facts StateSpec.
Import ListNotations.

Lemma put_length m off d : off + length d <= length m -> length (put m off d) = length m.
Proof. intros H. unfold put. rewrite !app_length, firstn_length, skipn_length. lia. Qed.
Lemma put_nil m off : put m off [] = m.
Proof. unfold put. cbn [app length]. rewrite Nat.add_0_r. apply firstn_skipn. Qed.
Lemma xorl_again (a : bytes) : forall b, length a = length b -> xorl a (xorl a b) = b.
Proof.
  induction a as [|x a IH]; intros [|y b] H; try discriminate H; [reflexivity|]. cbn [xorl]. injection H as H. rewrite IH by exact H. f_equal.
  rewrite <- N.lxor_assoc, N.lxor_nilpotent. apply N.lxor_0_l.
Qed.
(** adding the difference *)
Definition diff (m : bytes) (off : nat) (d : bytes) : bytes := xorl (slice m off (length d)) d.
Lemma diff_length m off d : off + length d <= length m -> length (diff m off d) = length d.
Proof. intros H. unfold diff. rewrite xorl_length, slice_length by exact H. lia. Qed.
Lemma put_xin m off d : off + length d <= length m -> put m off d = xin m off (diff m off d).
Proof.
  intros H. rewrite xin_split by (rewrite diff_length; exact H). rewrite diff_length by exact H. unfold put, diff. rewrite xorl_again; [reflexivity|]. apply slice_length. exact H.
Qed.
Lemma put_bytes m off d : is_bytes m -> is_bytes d -> is_bytes (put m off d).
Proof. intros Hm Hd. unfold put. apply Forall_app. split; [apply firstn_bytes; exact Hm|]. apply Forall_app. split; [exact Hd|apply skipn_bytes; exact Hm]. Qed.
Lemma diff_bytes m off d : is_bytes m -> is_bytes d -> is_bytes (diff m off d).
Proof.
  intros Hm Hd. unfold diff. generalize (slice_bytes m off (length d) Hm). generalize (slice m off (length d)). clear Hm. intros a Ha. revert d Hd.
  induction Ha as [|x a Hx Ha IH]; intros d Hd; [constructor|]. destruct Hd as [|y d Hy Hd]; [constructor|]. cbn [xorl]. constructor; [|apply IH; exact Hd].
  apply (lxor_lt_pow2 x y 8 Hx Hy).
Qed.
Lemma put_nth m off d k : off + length d <= length m -> nth k (put m off d) 0%N = if (off <=? k) && (k <? off + length d) then nth (k - off) d 0%N else nth k m 0%N.
Proof.
  intros H. unfold put. destruct (Nat.leb_spec off k) as [A|A]; cbn [andb].
  - rewrite app_nth2 by (rewrite firstn_length; lia). rewrite firstn_length. replace (Nat.min off (length m)) with off by lia. destruct (Nat.ltb_spec k (off + length d)) as [B|B].
    + rewrite app_nth1 by lia. reflexivity.
    + rewrite app_nth2 by lia. rewrite nth_skip'. f_equal. lia.
  - rewrite app_nth1 by (rewrite firstn_length; lia). apply nth_first. lia.
Qed.
Lemma put_app m off d e : off + length d + length e <= length m -> put m off (d ++ e) = put (put m off d) (off + length d) e.
Proof.
  intros H. apply (nth_ext _ _ 0%N 0%N); [rewrite !put_length by (rewrite ?app_length, ?put_length; lia); reflexivity|].
  intros k _. rewrite !put_nth by (rewrite ?app_length, ?put_length; lia). rewrite app_length.
  destruct (Nat.leb_spec off k) as [A|A]; destruct (Nat.leb_spec (off + length d) k) as [B|B]; try lia; cbn [andb].
  - replace (k <? off + length d) with false by (symmetry; apply Nat.ltb_ge; lia). rewrite Nat.add_assoc. destruct (k <? off + length d + length e); [|reflexivity]. rewrite app_nth2 by lia. f_equal. lia.
  - replace (k <? off + (length d + length e)) with true by (symmetry; apply Nat.ltb_lt; lia). replace (k <? off + length d) with true by (symmetry; apply Nat.ltb_lt; lia). rewrite app_nth1 by lia. reflexivity.
  - reflexivity.
Qed.
Lemma slice_put (d P : bytes) p q n : q + length P <= length d -> p + length P + n <= length d -> q <= p \/ p + length P + n <= q -> slice (put d q P) (p + length P) n = slice d (p + length P) n.
Proof.
  intros Hq Hp Hs. apply (nth_ext _ _ 0%N 0%N); [rewrite !slice_length by (rewrite ?put_length; lia); reflexivity|].
  intros k Hk. rewrite slice_length in Hk by (rewrite put_length; lia). unfold slice. rewrite !nth_first by exact Hk. rewrite !nth_skip'. rewrite put_nth by exact Hq.
  destruct (Nat.leb_spec q (p + length P + k)) as [A|A]; [|reflexivity]. destruct (Nat.ltb_spec (p + length P + k) (q + length P)) as [B|B]; [lia|reflexivity].
Qed.
Lemma xorl_app (a b c e : bytes) : length a = length c -> xorl (a ++ b) (c ++ e) = xorl a c ++ xorl b e.
Proof. revert c. induction a as [|x a IH]; intros [|y c] H; try discriminate H; [reflexivity|]. cbn [app xorl]. rewrite IH by (injection H as H; exact H). reflexivity. Qed.
