(** Compression of four blocks at a time *)
From Coq Require Import Arith NArith List Bool Lia.
From Verif Require Import Prelude SpongeModel SpongeFacts KeccakSpec KeccakModel KeccakFacts KeccakBytes SnpMem SnpLayout SnpSponge Opt64Model Opt64Facts Opt64More Opt64MoreFacts X86Model Simd256Model Simd256Round Simd256Facts StateSpec PutFacts Avx2Fast12 StateModel StateFacts FourSpec FourModel FourLay FourAll FourPerm KravSpec KravModel.
Import ListNotations.

(** *** words *)
Lemma word_of_le b : word_of b = le_word b.
Proof. induction b as [|x b IH]; [reflexivity|]. change (word_of (x :: b)) with (x + 256 * word_of b)%N. rewrite IH. reflexivity. Qed.
Lemma words_list m : words_of m = lanes_list (copy_from_state m).
Proof. rewrite copy_list. unfold words_of. apply map_ext. intros j. rewrite word_of_le. reflexivity. Qed.
Lemma stored_bytes n : forall w, map (fun j => (w / 256 ^ N.of_nat j) mod 256)%N (seq 0 n) = le_bytes n w.
Proof.
  induction n as [|n IH]; intros w; [reflexivity|]. cbn [seq map le_bytes]. change (256 ^ N.of_nat 0)%N with 1%N. rewrite N.div_1_r. f_equal. rewrite <- IH. rewrite <- seq_shift, map_map. apply map_ext. intros j.
  rewrite Nat2N.inj_succ, N.pow_succ_r', N.div_div by (try discriminate; apply N.pow_nonzero; discriminate). reflexivity.
Qed.
Lemma stored_list L : stored (lanes_list L) = copy_to_state L.
Proof. unfold stored. rewrite flat_map_concat_map. rewrite (map_ext _ (le_bytes 8)) by (intros; apply stored_bytes). reflexivity. Qed.
Lemma rounds_b64 n L : Forall b64 (lanes_list L) -> Forall b64 (lanes_list (rounds_n n L)).
Proof.
  intros H. assert (X : Forall b64 (lane_list L)). { destruct L. exact H. }
  pose proof (rounds_n_b64 n L X) as Y. destruct (rounds_n n L). exact Y.
Qed.
Lemma permuted6_list L : Forall b64 (lanes_list L) -> permuted6 (lanes_list L) = lanes_list (rounds_n 6 L).
Proof.
  intros H. unfold permuted6. rewrite stored_list. destruct (to_state_good L) as [B1 L1]. rewrite <- perm_back by (try assumption; lia). unfold permute_n. rewrite from_to by exact H. rewrite words_list. rewrite from_to; [reflexivity|apply rounds_b64; exact H].
Qed.
Lemma rotated_rol x : rotated x 7 = rol64 x 7.
Proof. unfold rotated, rol64. rewrite N.shiftl_mul_pow2, N.shiftr_div_pow2. reflexivity. Qed.

(** *** the rolling function *)
Definition fresh5 (a b : N) : N := N.lxor (N.lxor (rotated a 7) b) (b / 2 ^ 3).
Lemma fresh5_b64 a b : b64 a -> b64 b -> b64 (fresh5 a b).
Proof.
  intros A B. unfold fresh5. apply b64_lxor; [apply b64_lxor; [|exact B]|].
  - rewrite rotated_rol. apply b64_rol64; exact A.
  - unfold b64 in *. apply N.le_lt_trans with b; [|exact B]. apply N.div_le_upper_bound; [discriminate|]. change (2 ^ 3)%N with 8%N. lia.
Qed.
Lemma Rollc_ok a b c d e : b64 a -> b64 b -> b64 c -> b64 d ->
  let f := fresh5 a b in let g := fresh5 b c in let h := fresh5 c d in let i := fresh5 d e in
  Kravatte_Rollc (V4 a b c d) (V4 b c d e) = (V4 a b c d, V4 b c d e, V4 c d e f, V4 d e f g, V4 e f g h, V4 e f g h, V4 f g h i).
Proof.
  intros A B C D. cbv zeta. unfold Kravatte_Rollc. cbv zeta. change 7%N with (N.of_nat 7). rewrite (rol_eq (V4 a b c d) 7) by (try (repeat split; assumption); lia). cbn [w0 w1 w2 w3]. rewrite <- !rotated_rol.
  assert (E : XOR256 (XOR256 (V4 (rotated a 7) (rotated b 7) (rotated c 7) (rotated d 7)) (V4 b c d e)) (srli_epi64 (V4 b c d e) 3) = V4 (fresh5 a b) (fresh5 b c) (fresh5 c d) (fresh5 d e)).
  { unfold XOR256, vmap2, srli_epi64, w_shr, w_xor, fresh5. cbn [w0 w1 w2 w3]. change (3 <? 64)%N with true. cbv iota. rewrite !N.shiftr_div_pow2. reflexivity. }
  rewrite E. generalize (fresh5 a b) (fresh5 b c) (fresh5 c d) (fresh5 d e). intros f g h i. reflexivity.
Qed.

(** *** loading *)
Lemma word_at_ok m a : a < length m -> word_at m a = Ok (nth a m 0%N).
Proof. intros H. unfold word_at. rewrite (nth_error_nth' m 0%N H). reflexivity. Qed.
Lemma AddOverWr4_ok key d a : length key = 25 -> a + 4 <= 25 -> 800 <= length d -> AddOverWr4 key d a =
  Ok (XOR256 (vcol d 25 (a + 0)) (CONST256_64 (nth (a + 0) key 0%N)), XOR256 (vcol d 25 (a + 1)) (CONST256_64 (nth (a + 1) key 0%N)),
      XOR256 (vcol d 25 (a + 2)) (CONST256_64 (nth (a + 2) key 0%N)), XOR256 (vcol d 25 (a + 3)) (CONST256_64 (nth (a + 3) key 0%N))).
Proof.
  intros Lk Ha Ld. unfold AddOverWr4. rewrite !LOAD256u_ok by lia. cbn [bind]. replace (a + 0 * 25) with a by lia. replace (a + 1 * 25) with (25 + a) by lia. replace (a + 2 * 25) with (25 * 2 + a) by lia. replace (a + 3 * 25) with (25 * 3 + a) by lia.
  rewrite intleave_ok. rewrite !word_at_ok by lia. reflexivity.
Qed.
Lemma LoadXOR_ok l d a : a < 25 -> 800 <= length d -> LoadXOReq256 l d a = Ok (XOR256 l (vcol d 25 a)).
Proof. intros Ha Ld. unfold LoadXOReq256. rewrite LOAD4_ok by lia. reflexivity. Qed.
Lemma block_words (d : bytes) i : i < 4 -> words_of (part d (200 * i) 200) = map (fun j => lane d (25 * i + j)) (seq 0 25).
Proof.
  intros Hi. unfold words_of. apply map_ext_in. intros j Hj. apply in_seq in Hj. rewrite word_of_le. unfold lane, slice, part. f_equal. rewrite skipn_firstn_comm, firstn_firstn, skip_skip. f_equal; [|f_equal]; lia.
Qed.
(** the 25 words of a key *)
Lemma list25 (k : list N) : length k = 25 -> k = map (fun i => nth i k 0%N) (seq 0 25).
Proof. intros L. do 25 (destruct k as [|? k]; [discriminate L|]). destruct k; [reflexivity|discriminate L]. Qed.
Definition good (k : list N) : Prop := length k = 25 /\ Forall b64 k.
Lemma good_nth k i : good k -> b64 (nth i k 0%N).
Proof. intros [_ F]. destruct (Nat.lt_ge_cases i (length k)) as [H|H]; [rewrite Forall_forall in F; apply F, nth_In; exact H|rewrite nth_overflow by exact H; reflexivity]. Qed.
Lemma rolled_good k : good k -> good (rolled k).
Proof.
  intros G. pose proof (fresh5_b64 _ _ (good_nth k 20 G) (good_nth k 21 G)) as X. pose proof (fun i => good_nth k i G) as Y. destruct G as [L F]. split.
  - unfold rolled. cbv zeta. rewrite app_length, firstn_length, L. reflexivity.
  - unfold rolled. cbv zeta. apply Forall_app. split; [rewrite <- (firstn_skipn 20 k) in F; apply Forall_app in F; apply F|]. repeat (constructor; [first [apply Y|exact X]|]). constructor.
Qed.
Lemma iter_good t k : good k -> good (Nat.iter t rolled k).
Proof. intros G. induction t as [|t IH]; [exact G|]. apply rolled_good. exact IH. Qed.
(** xA and xB hold the words of K that roll; the others are those of the key *)
Lemma cons_eq (x y : N) l l' : x = y -> l = l' -> x :: l = y :: l'.
Proof. intros -> ->. reflexivity. Qed.
Definition vword (K : list N) (a : nat) : V256 := V4 (nth a K 0%N) (nth (a + 1) K 0%N) (nth (a + 2) K 0%N) (nth (a + 3) K 0%N).
Definition holds (key K : list N) (xA xB : V256) : Prop := good K /\ firstn 20 K = firstn 20 key /\ xA = vword K 20 /\ xB = vword K 21.
Lemma vcol_ok d a : is_bytes d -> vok (vcol d 25 a).
Proof. intros B. repeat split; apply lane_b64; exact B. Qed.
Lemma load_ok key K d xA xB : good key -> holds key K xA xB -> is_bytes d -> 800 <= length d ->
  exists A xA' xB', krav_load key d xA xB = Ok (A, xA', xB') /\ holds key (Nat.iter 4 rolled K) xA' xB' /\ Forall vok (vlist A) /\
    forall i, i < 4 -> map (p_of i) (vlist A) = added (Nat.iter i rolled K) (words_of (part d (200 * i) 200)).
Proof.
  intros Gk (GK & F20 & -> & ->) Bd Ld. unfold krav_load. destruct Gk as [Lk Fk]. rewrite !AddOverWr4_ok by (try assumption; lia). cbn [bind].
  pose proof (fun i => good_nth K i GK) as HK. unfold vword. cbn [Nat.add]. rewrite Rollc_ok by apply HK. cbv zeta. rewrite !LoadXOR_ok by (try assumption; lia). cbn [bind].
  eexists _, _, _. split; [reflexivity|]. split; [|split].
  - split; [apply (iter_good 4); exact GK|]. destruct GK as [LK FK]. clear HK. do 25 (destruct K as [|? K]; [discriminate LK|]). destruct K; [|discriminate LK]. split; [exact F20|]. split; reflexivity.
  - assert (HC : forall a, vok (CONST256_64 (nth a key 0%N))) by (intros a; pose proof (good_nth key a (conj Lk Fk)); repeat split; assumption).
    pose proof (fresh5_b64 _ _ (HK 20) (HK 21)). pose proof (fresh5_b64 _ _ (HK 21) (HK 22)). pose proof (fresh5_b64 _ _ (HK 22) (HK 23)).
    unfold vlist. repeat (constructor; [apply vok_xor; first [apply vcol_ok; exact Bd|apply HC|repeat split; first [apply HK|assumption]]|]). constructor.
  - intros i Hi. rewrite block_words by exact Hi. clear HK. destruct GK as [LK FK]. do 25 (destruct K as [|? K]; [discriminate LK|]). destruct K; [|discriminate LK]. do 25 (destruct key as [|? key]; [discriminate Lk|]). destruct key; [|discriminate Lk].
    cbn [firstn] in F20. injection F20 as -> -> -> -> -> -> -> -> -> -> -> -> -> -> -> -> -> -> -> ->. clear - Hi.
    do 4 (destruct i as [|i]; [unfold added, vlist, XOR256, vmap2, CONST256_64, vcol, p_of, w_xor; cbn [map v_ba v_be v_bi v_bo v_bu v_ga v_ge v_gi v_go v_gu v_ka v_ke v_ki v_ko v_ku v_ma v_me v_mi v_mo v_mu v_sa v_se v_si v_so v_su w0 w1 w2 w3 nth seq Nat.add Nat.mul Nat.iter nat_rect rolled firstn app combine fst snd];
      repeat (apply cons_eq; [solve [reflexivity|apply N.lxor_comm]|]); reflexivity|]).
    lia.
Qed.

(** *** accumulating *)
Definition sum4 (acc : list N) (B : vlanes) : list N := added (added (added (added acc (map (p_of 0) (vlist B))) (map (p_of 1) (vlist B))) (map (p_of 2) (vlist B))) (map (p_of 3) (vlist B)).
Lemma xor_order a x y z t : N.lxor (N.lxor (N.lxor x y) (N.lxor z t)) a = N.lxor (N.lxor (N.lxor (N.lxor a x) y) z) t.
Proof. rewrite N.lxor_comm. rewrite !N.lxor_assoc. reflexivity. Qed.
Lemma xor_order' a x y z t : N.lxor a (N.lxor (N.lxor (N.lxor x y) z) t) = N.lxor (N.lxor (N.lxor (N.lxor a x) y) z) t.
Proof. rewrite !N.lxor_assoc. reflexivity. Qed.
Definition quad (v : V256) (x : N) : N := N.lxor (N.lxor (N.lxor (N.lxor x (w0 v)) (w1 v)) (w2 v)) (w3 v).
Lemma Accu4_eq l0 l1 l2 l3 p a : ExtrAccu4 l0 l1 l2 l3 p a = do v <- wload p a; wstore p a (V4 (quad l0 (w0 v)) (quad l1 (w1 v)) (quad l2 (w2 v)) (quad l3 (w3 v))).
Proof.
  unfold ExtrAccu4. destruct l0 as [a0 a1 a2 a3], l1 as [b0 b1 b2 b3], l2 as [c0 c1 c2 c3], l3 as [d0 d1 d2 d3].
  change (UNINTLEAVE (V4 a0 a1 a2 a3) (V4 b0 b1 b2 b3) (V4 c0 c1 c2 c3) (V4 d0 d1 d2 d3)) with (V4 a0 b0 c0 d0, V4 a1 b1 c1 d1, V4 a2 b2 c2 d2, V4 a3 b3 c3 d3). cbv iota zeta beta.
  destruct (wload p a) as [v| | |]; [|reflexivity..]. cbn [bind]. f_equal. unfold XOR256, vmap2, w_xor, quad. cbn [w0 w1 w2 w3]. rewrite !xor_order. reflexivity.
Qed.
Lemma Accu_eq l p a : ExtrAccu l p a = do x <- word_at p a; set_word p a (quad l x).
Proof. unfold ExtrAccu. destruct (word_at p a) as [x| | |]; [|reflexivity..]. cbn [bind]. rewrite xor_order'. reflexivity. Qed.
Lemma accu_ok B acc : length acc = 25 -> krav_accu B acc = Ok (sum4 acc B).
Proof.
  intros L. do 25 (destruct acc as [|? acc]; [discriminate L|]). destruct acc; [|discriminate L]. destruct B as [Aba Abe Abi Abo Abu Aga Age Agi Ago Agu Aka Ake Aki Ako Aku Ama Ame Ami Amo Amu Asa Ase Asi Aso Asu].
  unfold krav_accu. do 6 (rewrite Accu4_eq; unfold wload, wstore, word_at, set_word; cbn [nth_error bind w0 w1 w2 w3 Nat.add length Nat.ltb Nat.leb firstn skipn app]).
  rewrite Accu_eq. unfold word_at, set_word. cbn [nth_error bind Nat.add length Nat.ltb Nat.leb firstn skipn app].
  unfold sum4, added, vlist. cbn [map v_ba v_be v_bi v_bo v_bu v_ga v_ge v_gi v_go v_gu v_ka v_ke v_ki v_ko v_ku v_ma v_me v_mi v_mo v_mu v_sa v_se v_si v_so v_su combine fst snd p_of]. reflexivity.
Qed.
