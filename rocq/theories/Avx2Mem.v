(** The memory layout of keccak/avx2 and single memory accesses of the machine. *)
From Coq Require Import Arith NArith ZArith String List Bool Lia.
From Verif Require Import Prelude SpongeModel SpongeFacts KeccakModel KeccakFacts KeccakBytes SnpMem SnpLayout SnpSim Opt64Model Opt64Facts X86Model Avx2Code Avx2Round Avx2Perm.
Import ListNotations.

(** word of the memory that holds lane j: the table mapState, KeccakP-1600-AVX2.s:1100-1105, in words *)
Definition word_of (j : nat) : nat := nth j [0; 1; 2; 3; 4; 7; 21; 10; 15; 20; 5; 13; 22; 19; 12; 8; 9; 18; 23; 16; 6; 17; 14; 11; 24] 0.
Definition pos1 (i j : nat) : nat := word_of j.
Definition rel (m st : bytes) : Prop := lay 1 25 pos1 m [st].

Lemma word_of_lt j : word_of j < 25.
Proof. do 25 (destruct j as [|j]; [cbn; lia|]). cbn. destruct j; cbn; lia. Qed.
Lemma word_of_inj j j' : j < 25 -> j' < 25 -> word_of j = word_of j' -> j = j'.
Proof.
  intros H H' E. assert (F : forallb (fun a => forallb (fun b => implb (word_of a =? word_of b) (a =? b)) (seq 0 25)) (seq 0 25) = true) by (vm_compute; reflexivity).
  rewrite forallb_forall in F. specialize (F j ltac:(apply in_seq; lia)). rewrite forallb_forall in F. specialize (F j' ltac:(apply in_seq; lia)). rewrite E, Nat.eqb_refl in F. apply Nat.eqb_eq. exact F.
Qed.
Lemma pos1_lt i j : i < 1 -> j < 25 -> pos1 i j < 25.
Proof. intros _ _. apply word_of_lt. Qed.
Lemma pos1_inj i j i' j' : i < 1 -> j < 25 -> i' < 1 -> j' < 25 -> pos1 i j = pos1 i' j' -> i = i' /\ j = j'.
Proof. intros H H1 H2 H3 E. split; [lia|]. apply word_of_inj; assumption. Qed.

Lemma rel_xin m st j k d : rel m st -> j < 25 -> k + List.length d <= 8 -> is_bytes d -> rel (xin m (8 * word_of j + k) d) (xin st (8 * j + k) d).
Proof. intros H Hj Hk Hd. exact (lay_xin 1 25 pos1 pos1_lt pos1_inj m [st] 0 j k d H ltac:(lia) Hj Hk Hd). Qed.
Lemma rel_facts m st : rel m st -> List.length m = 200 /\ is_bytes m /\ List.length st = 200 /\ is_bytes st.
Proof. intros (L & B & _ & F & _). specialize (F 0 ltac:(lia)). cbn [nth] in F. tauto. Qed.
Lemma rel_slice m st j : rel m st -> j < 25 -> slice m (8 * word_of j) 8 = slice st (8 * j) 8.
Proof. intros (_ & _ & _ & _ & H) Hj. exact (H 0 j ltac:(lia) Hj). Qed.
Lemma rel_intro m st : List.length m = 200 -> is_bytes m -> List.length st = 200 -> is_bytes st -> (forall j, j < 25 -> slice m (8 * word_of j) 8 = slice st (8 * j) 8) -> rel m st.
Proof.
  intros L B L' B' H. split; [exact L|]. split; [exact B|]. split; [reflexivity|]. split.
  - intros i Hi. replace i with 0 by lia. split; assumption.
  - intros i j Hi Hj. replace i with 0 by lia. exact (H j Hj).
Qed.

(** *** lanes in order of memory *)
Definition words (A : lanes) : list N :=
  [l_ba A; l_be A; l_bi A; l_bo A; l_bu A; l_ka A; l_sa A; l_ga A; l_ma A; l_me A; l_gi A; l_so A; l_ku A; l_ke A; l_si A; l_go A; l_mu A; l_se A; l_mi A; l_ko A; l_gu A; l_ge A; l_ki A; l_mo A; l_su A].
Definition memory (A : lanes) : bytes := concat (map (le_bytes 8) (words A)).
Lemma words_nth A j : j < 25 -> nth (word_of j) (words A) 0%N = nth j (lanes_list A) 0%N.
Proof. intros H. do 25 (destruct j as [|j]; [reflexivity|]). lia. Qed.
Lemma concat8_len (l : list N) : List.length (concat (map (le_bytes 8) l)) = 8 * List.length l.
Proof. induction l as [|x l IH]; [reflexivity|]. cbn [map concat List.length]. rewrite app_length, le_bytes_length, IH. lia. Qed.
Lemma concat8_bytes (l : list N) : is_bytes (concat (map (le_bytes 8) l)).
Proof. induction l as [|x l IH]; [constructor|]. cbn [map concat]. apply Forall_app. split; [apply le_bytes_is_bytes|exact IH]. Qed.
Lemma memory_slice A k : k < 25 -> slice (memory A) (8 * k) 8 = le_bytes 8 (nth k (words A) 0%N).
Proof.
  intros H. apply (nth_ext _ _ 0%N 0%N); [rewrite slice_length, le_bytes_length by (unfold memory; rewrite concat8_len; cbn [words List.length]; lia); reflexivity|].
  rewrite slice_length by (unfold memory; rewrite concat8_len; cbn [words List.length]; lia). intros t Ht. rewrite slice_nth by exact Ht.
  refine (eq_trans (nth_concat8 (words A) (8 * k + t) _) _); [change (List.length (words A)) with 25; lia|].
  rewrite Nat.mul_comm. rewrite Nat.div_add_l by discriminate. rewrite (Nat.div_small t 8) by exact Ht. rewrite Nat.add_0_r. rewrite Nat.add_comm, Nat.mod_add by discriminate. rewrite Nat.mod_small by exact Ht. reflexivity.
Qed.
Lemma rel_memory A : rel (memory A) (copy_to_state A).
Proof.
  apply rel_intro.
  - unfold memory. rewrite concat8_len. reflexivity.
  - apply concat8_bytes.
  - apply to_length.
  - apply (concat8_bytes (lanes_list A)).
  - intros j Hj. rewrite memory_slice by apply word_of_lt. rewrite to_state_slice by exact Hj. rewrite words_nth by exact Hj. reflexivity.
Qed.
Lemma rel_lane m st j : rel m st -> j < 25 -> le_word (slice m (8 * word_of j) 8) = lane st j.
Proof. intros H Hj. rewrite (rel_slice m st j H Hj). reflexivity. Qed.

(** *** accesses *)
Lemma mread_ok m z n : (0 <= z)%Z -> Z.to_nat z + n <= List.length m -> mread m z n = Ok (slice m (Z.to_nat z) n).
Proof. intros H L. unfold mread. replace (z <? 0)%Z with false by (symmetry; apply Z.ltb_ge; exact H). apply read_ok. exact L. Qed.
Lemma mread_nat m k n : k + n <= List.length m -> mread m (Z.of_nat k) n = Ok (slice m k n).
Proof. intros L. rewrite mread_ok by (rewrite ?Nat2Z.id; lia). rewrite Nat2Z.id. reflexivity. Qed.
Lemma mwrite_nat m k d : k + List.length d <= List.length m -> mwrite m (Z.of_nat k) d = Ok (firstn k m ++ d ++ skipn (k + List.length d) m).
Proof.
  intros L. unfold mwrite. replace (Z.of_nat k <? 0)%Z with false by (symmetry; apply Z.ltb_ge; lia). rewrite Nat2Z.id. replace (k + List.length d <=? List.length m) with true by (symmetry; apply Nat.leb_le; exact L). reflexivity.
Qed.
(** a byte or a word is added to memory *)
Lemma slice1 (m : bytes) k : k < List.length m -> slice m k 1 = [nth k m 0%N].
Proof.
  intros H. apply (nth_ext _ _ 0%N 0%N); [rewrite slice_length by lia; reflexivity|]. rewrite slice_length by lia. intros t Ht. rewrite slice_nth by exact Ht. replace t with 0 by lia. rewrite Nat.add_0_r. reflexivity.
Qed.
Lemma nth_byte (m : bytes) k : is_bytes m -> is_byte (nth k m 0%N).
Proof. intros H. destruct (Nat.ltb_spec k (List.length m)) as [L|L]; [unfold is_bytes in H; rewrite Forall_forall in H; apply H; apply nth_In; exact L|rewrite nth_overflow by exact L; reflexivity]. Qed.
Lemma le_word1 b : le_word [b] = b.
Proof. cbn [le_word]. lia. Qed.
Lemma write_xor8 m k b : is_bytes m -> is_byte b -> k < List.length m -> mwrite m (Z.of_nat k) (le_bytes 1 (N.lxor (nth k m 0%N) b)) = Ok (xin m k [b]).
Proof.
  intros Hm Hb L. rewrite mwrite_nat by (rewrite le_bytes_length; lia). rewrite xin_split by (cbn [List.length]; lia). rewrite le_bytes_length. cbn [List.length]. rewrite slice1 by exact L. rewrite le_bytes_lxor.
  replace (le_bytes 1 (nth k m 0%N)) with [nth k m 0%N]; [replace (le_bytes 1 b) with [b]; [reflexivity|]|]; cbn [le_bytes]; rewrite N.mod_small; try reflexivity; [exact Hb|apply (nth_byte m k Hm)].
Qed.
Lemma write_xor64 m k w : is_bytes m -> k + 8 <= List.length m -> mwrite m (Z.of_nat k) (le_bytes 8 (N.lxor (le_word (slice m k 8)) w)) = Ok (xin m k (le_bytes 8 w)).
Proof.
  intros Hm L. rewrite mwrite_nat by (rewrite le_bytes_length; lia). rewrite xin_split by (rewrite le_bytes_length; lia). rewrite le_bytes_length. rewrite le_bytes_lxor. f_equal. f_equal. f_equal. f_equal.
  pose proof (le_bytes_word (slice m k 8) (slice_bytes _ _ _ Hm)) as E. rewrite slice_length in E by exact L. exact E.
Qed.
(** consecutive writes *)
Lemma write_next (P m d : bytes) k z : List.length P = k -> z = Z.of_nat k -> k + List.length d <= List.length m -> mwrite (P ++ skipn k m) z d = Ok ((P ++ d) ++ skipn (k + List.length d) m).
Proof.
  intros LP -> L. rewrite mwrite_nat by (rewrite app_length, skipn_length; lia). rewrite firstn_app, LP, Nat.sub_diag, firstn_O, app_nil_r, firstn_all2 by lia. rewrite <- !app_assoc. rewrite skipn_app. rewrite (skipn_all2 P) by lia. cbn [app].
  rewrite LP. replace (k + List.length d - k) with (List.length d) by lia. do 3 f_equal. clear. revert k. induction m as [|x m IH]; intros k; [rewrite !skipn_nil; reflexivity|]. destruct k as [|k]; [reflexivity|]. cbn [Nat.add skipn]. apply IH.
Qed.
