(** KeccakP1600_AddByte and AddBytes of keccak/avx2 *)
From Coq Require Import Arith NArith ZArith String List Bool Lia.
From Verif Require Import Prelude SpongeModel SpongeFacts KeccakModel KeccakFacts KeccakBytes SnpMem SnpLayout SnpSim Opt64Model Opt64Facts X86Model Avx2Code Avx2Round Avx2Perm Avx2Mem Avx2Facts Avx2Calls.
Import ListNotations.

(** *** numbers *)
Lemma sx_nat k : k <= 200 -> sx (N.of_nat k) = Z.of_nat k.
Proof. intros H. unfold sx. replace (N.of_nat k <? 2 ^ 63)%N with true by (symmetry; apply N.ltb_lt; lia). lia. Qed.
Lemma sx8 : sx 8 = 8%Z.
Proof. reflexivity. Qed.
Lemma sx1 : sx 1 = 1%Z.
Proof. reflexivity. Qed.
Lemma land7 j k hi : k < 8 -> N.land (N.of_nat (8 * j + k) + 2 ^ 32 * hi) 7 = N.of_nat k.
Proof.
  intros H. change 7%N with (N.ones 3). rewrite N.land_ones. replace (N.of_nat (8 * j + k) + 2 ^ 32 * hi)%N with (N.of_nat k + (N.of_nat j + 2 ^ 29 * hi) * 2 ^ 3)%N by lia. rewrite N.mod_add by discriminate. apply N.mod_small. change (2 ^ 3)%N with 8%N. lia.
Qed.
Lemma land_lane j k hi : k < 8 -> j < 25 -> N.land ((N.of_nat (8 * j + k) + 2 ^ 32 * hi) mod 2 ^ 32) 4294967288 = N.of_nat (8 * j).
Proof.
  intros H Hj. rewrite N.mul_comm, N.mod_add by discriminate. rewrite N.mod_small by lia.
  assert (F : forallb (fun j => forallb (fun k => N.land (N.of_nat (8 * j + k)) 4294967288 =? N.of_nat (8 * j))%N (seq 0 8)) (seq 0 25) = true) by (vm_compute; reflexivity).
  rewrite forallb_forall in F. specialize (F j ltac:(apply in_seq; lia)). rewrite forallb_forall in F. specialize (F k ltac:(apply in_seq; lia)). apply N.eqb_eq. exact F.
Qed.
Lemma map_read j z : j < 25 -> z = (1152 + 8 * Z.of_nat j)%Z -> mread constants z 8 = Ok (le_bytes 8 (N.of_nat (8 * word_of j))).
Proof.
  intros H ->. do 25 (destruct j as [|j]; [vm_compute; reflexivity|]). lia.
Qed.
Lemma map_word j : le_word (le_bytes 8 (N.of_nat (8 * word_of j))) = N.of_nat (8 * word_of j).
Proof. apply le_word_bytes. pose proof (word_of_lt j). change (256 ^ N.of_nat 8)%N with (2 ^ 64)%N. lia. Qed.
Lemma byte_low b hi : is_byte b -> ((b + 256 * hi) mod 2 ^ 8 = b)%N.
Proof. intros H. change (2 ^ 8)%N with 256%N. rewrite N.mul_comm, N.mod_add by discriminate. apply N.mod_small. exact H. Qed.

Lemma add_byte_leads m st va vb vc v8 v9 v10 c z s md y b hb off hi : rel m st -> is_byte b -> off < 200 ->
  leads 9 (mkM 10 (mkG va vb vc (Vi (N.of_nat off + 2 ^ 32 * hi)) (Vi (b + 256 * hb)) (Vp Bst 0) v8 v9 v10) y c z s m md)
    (fun M => exists G' y' c' z' m', M = mkM 19 G' y' c' z' s m' md /\ rbx G' = vb /\ rel m' (xin st off [b])).
Proof.
  intros H Hb Ho. pose proof (Nat.div_mod off 8 ltac:(discriminate)) as E. pose proof (Nat.mod_upper_bound off 8 ltac:(discriminate)) as U. assert (J : off / 8 < 25) by (apply Nat.div_lt_upper_bound; lia).
  set (j := off / 8) in *. set (k := off mod 8) in *. clearbody j k. subst off. pose proof (word_of_lt j) as W. pose proof (rel_facts m st H) as (Lm & Bm & Ls & Bs).
  eapply leads_weak.
  - ls; [reflexivity|]. ls; [reflexivity|]. ls; [rewrite land7 by exact U; reflexivity|]. ls; [rewrite land_lane by assumption; reflexivity|]. ls; [reflexivity|].
    ls; [xcbn2; rewrite sx_nat by lia; rewrite (map_read j) by (exact J || (unfold o_mapState; lia)); cbn [bind]; rewrite map_word; reflexivity|].
    ls; [rewrite sx_nat by lia; reflexivity|]. ls; [rewrite sx_nat by lia; reflexivity|].
    ls; [|].
    { xcbn2. rewrite byte_low by exact Hb. replace (0 + Z.of_nat (8 * word_of j) + Z.of_nat k + 0)%Z with (Z.of_nat (8 * word_of j + k)) by lia. rewrite mread_nat by lia. cbn [bind]. rewrite slice1 by lia. rewrite le_word1. rewrite write_xor8 by (assumption || lia). cbn [bind]. reflexivity. }
    apply (leads_0 0). eexists _, _, _, _, _. split; [reflexivity|]. split; [reflexivity|]. apply rel_xin; [exact H|exact J|cbn [List.length]; lia|apply one_byte; exact Hb].
  - lia.
Qed.

(** *** loops *)
Lemma dec64 n : (1 <= n < 2 ^ 64)%N -> ((n + (2 ^ 64 - 1)) mod 2 ^ 64)%N = (n - 1)%N.
Proof. intros H. replace (n + (2 ^ 64 - 1))%N with (n - 1 + 1 * 2 ^ 64)%N by lia. rewrite N.mod_add by discriminate. apply N.mod_small. lia. Qed.
Lemma merge_low u b : is_byte b -> ((256 * (u / 256) + b) mod 2 ^ 8 = b)%N.
Proof. intros H. rewrite N.add_comm. apply byte_low. exact H. Qed.
Lemma slice_S (d : bytes) p n : p < List.length d -> slice d p (S n) = nth p d 0%N :: slice d (p + 1) n.
Proof. intros H. change (S n) with (1 + n). rewrite <- slice_app. rewrite slice1 by exact H. reflexivity. Qed.
Lemma xin_cons m q b d : xin m q (b :: d) = xin (xin m q [b]) (q + 1) d.
Proof. change (b :: d) with ([b] ++ d). rewrite xin_app. reflexivity. Qed.

Ltac xor_byte m p q Hb :=
  xcbn2; rewrite merge_low by exact Hb; rewrite Z.add_0_r; rewrite mread_nat by lia; cbn [bind]; rewrite slice1 by lia; rewrite le_word1; rewrite write_xor8 by (assumption || lia); cbn [bind]; reflexivity.
Lemma byte_loop1 : forall n p q u vb vc vd vt v10 y c z s m d, is_bytes m -> is_bytes d -> List.length m = 200 -> q + S n <= 200 -> p + S n <= List.length d ->
  leads (7 * S n) (mkM 37 (mkG (Vp Bst (Z.of_nat q)) vb vc vd (Vp Bda (Z.of_nat p)) vt (Vi u) (Vi (N.of_nat (S n))) v10) y c z s m d)
    (fun M => exists v1 u' c' z', M = mkM 44 (mkG v1 vb vc vd (Vp Bda (Z.of_nat (p + S n))) vt (Vi u') (Vi 0) v10) y c' z' s (xin m q (slice d p (S n))) d).
Proof.
  induction n as [|n IH]; intros p q u vb vc vd vt v10 y c z s m d Bm Bd Lm Hq Hp; pose proof (nth_byte d p Bd) as Hb.
  - eapply leads_weak.
    + ls; [reflexivity|]. ls; [xcbn2; rewrite Z.add_0_r; rewrite mread_nat by lia; cbn [bind]; rewrite slice1 by lia; rewrite le_word1; reflexivity|].
      ls; [rewrite sx1; reflexivity|]. ls; [xor_byte m p q Hb|]. ls; [rewrite sx1; reflexivity|]. ls; [change (N.of_nat 1) with 1%N; rewrite dec64 by lia; reflexivity|]. ls; [reflexivity|].
      apply (leads_0 0). eexists _, _, _, _. rewrite slice1 by lia. replace (Z.of_nat p + 1)%Z with (Z.of_nat (p + 1)) by lia. reflexivity.
    + lia.
  - eapply leads_weak.
    + ls; [reflexivity|]. ls; [xcbn2; rewrite Z.add_0_r; rewrite mread_nat by lia; cbn [bind]; rewrite slice1 by lia; rewrite le_word1; reflexivity|].
      ls; [rewrite sx1; reflexivity|]. ls; [xor_byte m p q Hb|]. ls; [rewrite sx1; reflexivity|]. ls; [rewrite dec64 by lia; replace (N.of_nat (S (S n)) - 1)%N with (N.of_nat (S n)) by lia; replace (N.of_nat (S n) =? 0)%N with false by (symmetry; apply N.eqb_neq; lia); reflexivity|]. ls; [reflexivity|].
      replace (Z.of_nat p + 1)%Z with (Z.of_nat (p + 1)) by lia. replace (Z.of_nat q + 1)%Z with (Z.of_nat (q + 1)) by lia.
      eapply leads_weak; [|apply Nat.le_refl]. match goal with |- leads _ (mkM _ (mkG _ _ _ _ _ _ (Vi ?u') _ _) _ ?c' ?z' _ ?m' _) _ =>
        destruct (IH (p + 1) (q + 1) u' vb vc vd vt v10 y c' z' s m' d) as (k & M & L & R & v1 & u1 & c1 & z1 & ->); [apply xin_bytes; [exact Bm|apply one_byte; exact Hb]|exact Bd|rewrite xin_length; exact Lm|lia|lia|] end.
      exists k. eexists. split; [exact L|]. split; [exact R|]. exists v1, u1, c1, z1. rewrite (slice_S d p (S n)) by lia. rewrite (xin_cons m q _ (slice d (p + 1) (S n))). replace (p + 1 + S n) with (p + S (S n)) by lia. reflexivity.
    + lia.
Qed.
Lemma byte_loop2 : forall n p q u vb vd vt v9 v10 y c z s m d, is_bytes m -> is_bytes d -> List.length m = 200 -> q + S n <= 200 -> p + S n <= List.length d ->
  leads (7 * S n) (mkM 60 (mkG (Vp Bst (Z.of_nat q)) vb (Vi (N.of_nat (S n))) vd (Vp Bda (Z.of_nat p)) vt (Vi u) v9 v10) y c z s m d)
    (fun M => exists v1 u' c' z', M = mkM 67 (mkG v1 vb (Vi 0) vd (Vp Bda (Z.of_nat (p + S n))) vt (Vi u') v9 v10) y c' z' s (xin m q (slice d p (S n))) d).
Proof.
  induction n as [|n IH]; intros p q u vb vd vt v9 v10 y c z s m d Bm Bd Lm Hq Hp; pose proof (nth_byte d p Bd) as Hb.
  - eapply leads_weak.
    + ls; [reflexivity|]. ls; [xcbn2; rewrite Z.add_0_r; rewrite mread_nat by lia; cbn [bind]; rewrite slice1 by lia; rewrite le_word1; reflexivity|].
      ls; [rewrite sx1; reflexivity|]. ls; [xor_byte m p q Hb|]. ls; [rewrite sx1; reflexivity|]. ls; [change (N.of_nat 1) with 1%N; rewrite dec64 by lia; reflexivity|]. ls; [reflexivity|].
      apply (leads_0 0). eexists _, _, _, _. rewrite slice1 by lia. replace (Z.of_nat p + 1)%Z with (Z.of_nat (p + 1)) by lia. reflexivity.
    + lia.
  - eapply leads_weak.
    + ls; [reflexivity|]. ls; [xcbn2; rewrite Z.add_0_r; rewrite mread_nat by lia; cbn [bind]; rewrite slice1 by lia; rewrite le_word1; reflexivity|].
      ls; [rewrite sx1; reflexivity|]. ls; [xor_byte m p q Hb|]. ls; [rewrite sx1; reflexivity|]. ls; [rewrite dec64 by lia; replace (N.of_nat (S (S n)) - 1)%N with (N.of_nat (S n)) by lia; replace (N.of_nat (S n) =? 0)%N with false by (symmetry; apply N.eqb_neq; lia); reflexivity|]. ls; [reflexivity|].
      replace (Z.of_nat p + 1)%Z with (Z.of_nat (p + 1)) by lia. replace (Z.of_nat q + 1)%Z with (Z.of_nat (q + 1)) by lia.
      eapply leads_weak; [|apply Nat.le_refl]. match goal with |- leads _ (mkM _ (mkG _ _ _ _ _ _ (Vi ?u') _ _) _ ?c' ?z' _ ?m' _) _ =>
        destruct (IH (p + 1) (q + 1) u' vb vd vt v9 v10 y c' z' s m' d) as (k & M & L & R & v1 & u1 & c1 & z1 & ->); [apply xin_bytes; [exact Bm|apply one_byte; exact Hb]|exact Bd|rewrite xin_length; exact Lm|lia|lia|] end.
      exists k. eexists. split; [exact L|]. split; [exact R|]. exists v1, u1, c1, z1. rewrite (slice_S d p (S n)) by lia. rewrite (xin_cons m q _ (slice d (p + 1) (S n))). replace (p + 1 + S n) with (p + S (S n)) by lia. reflexivity.
    + lia.
Qed.

Lemma leads_conseq B M (Q Q' : machine -> Prop) : leads B M Q -> (forall M', Q M' -> Q' M') -> leads B M Q'.
Proof. intros (k & M' & L & H & q) N. exists k, M'. auto. Qed.
Lemma sub8 a : (8 <= a < 2 ^ 64)%N -> ((a + (2 ^ 64 - 8)) mod 2 ^ 64 = a - 8)%N.
Proof. intros H. replace (a + (2 ^ 64 - 8))%N with (a - 8 + 1 * 2 ^ 64)%N by lia. rewrite N.mod_add by discriminate. apply N.mod_small. lia. Qed.
Lemma sub8_borrow a : (a < 8)%N -> ((a + (2 ^ 64 - 8)) mod 2 ^ 64 = a + (2 ^ 64 - 8))%N.
Proof. intros H. apply N.mod_small. lia. Qed.
Lemma add8_back a : (a < 8)%N -> ((a + (2 ^ 64 - 8) + 8) mod 2 ^ 64 = a)%N.
Proof. intros H. replace (a + (2 ^ 64 - 8) + 8)%N with (a + 1 * 2 ^ 64)%N by lia. rewrite N.mod_add by discriminate. apply N.mod_small. lia. Qed.
Lemma slice_word (d : bytes) p : is_bytes d -> p + 8 <= List.length d -> le_bytes 8 (le_word (slice d p 8)) = slice d p 8.
Proof. intros H L. pose proof (le_bytes_word (slice d p 8) (slice_bytes _ _ _ H)) as E. rewrite slice_length in E by exact L. exact E. Qed.

(** whole lanes, from LaneAlignedCheck to LastIncompleteLane *)
Lemma lane_loop r (Hr : r < 8) : forall n i p va vb v8 v9 v10 y c z s m st d, rel m st -> is_bytes d -> i + n <= 25 -> p + 8 * n <= List.length d ->
  leads (10 * n + 3) (mkM 52 (mkG va vb (Vi (N.of_nat (8 * n + r))) (Vp Bro (1152 + 8 * Z.of_nat i)) (Vp Bda (Z.of_nat p)) (Vp Bst 0) (Vi v8) v9 v10) y c z s m d)
    (fun M => exists v1 v8' c' z' m', M = mkM 55 (mkG v1 vb (Vi (N.of_nat r + (2 ^ 64 - 8))) (Vp Bro (1152 + 8 * Z.of_nat (i + n))) (Vp Bda (Z.of_nat (p + 8 * n))) (Vp Bst 0) (Vi v8') v9 v10) y c' z' s m' d /\
      rel m' (xin st (8 * i) (slice d p (8 * n)))).
Proof.
  induction n as [|n IH]; intros i p va vb v8 v9 v10 y c z s m st d H Bd Hi Hp.
  - eapply leads_weak.
    + ls; [reflexivity|]. ls; [change (8 * 0) with 0; cbn [Nat.add]; rewrite sub8_borrow by lia; replace (N.of_nat r <? 8)%N with true by (symmetry; apply N.ltb_lt; lia); reflexivity|]. ls; [reflexivity|].
      apply (leads_0 0). eexists _, _, _, _, _. rewrite !Nat.add_0_r. split; [reflexivity|]. unfold slice. cbn [Nat.mul firstn]. rewrite xin_nil. exact H.
    + lia.
  - pose proof (rel_facts m st H) as (Lm & Bm & Ls & Bs). pose proof (word_of_lt i) as W. eapply leads_weak.
    + ls; [reflexivity|]. ls; [rewrite sub8 by lia; replace (N.of_nat (8 * S n + r) - 8)%N with (N.of_nat (8 * n + r)) by lia; replace (N.of_nat (8 * S n + r) <? 8)%N with false by (symmetry; apply N.ltb_ge; lia); reflexivity|]. ls; [reflexivity|].
      ls; [reflexivity|]. ls; [xcbn2; rewrite Z.add_0_r; rewrite mread_nat by lia; cbn [bind]; reflexivity|]. ls; [rewrite sx8; reflexivity|].
      ls; [xcbn2; rewrite Z.add_0_r; rewrite (map_read i) by lia; cbn [bind]; rewrite map_word; reflexivity|]. ls; [rewrite sx8; reflexivity|]. ls; [rewrite sx_nat by lia; reflexivity|].
      ls; [xcbn2; rewrite Z.add_0_r; rewrite Z.add_0_l; rewrite mread_nat by lia; cbn [bind]; rewrite write_xor64 by (assumption || lia); cbn [bind]; rewrite slice_word by (assumption || lia); reflexivity|].
      replace (Z.of_nat p + 8)%Z with (Z.of_nat (p + 8)) by lia. replace (1152 + 8 * Z.of_nat i + 8)%Z with (1152 + 8 * Z.of_nat (i + 1))%Z by lia.
      assert (H1 : rel (xin m (8 * word_of i) (slice d p 8)) (xin st (8 * i) (slice d p 8))).
      { pose proof (rel_xin m st i 0 (slice d p 8) H ltac:(lia) ltac:(rewrite slice_length by lia; lia) (slice_bytes _ _ _ Bd)) as X. rewrite !Nat.add_0_r in X. exact X. }
      eapply leads_conseq; [apply (IH (i + 1) (p + 8) _ vb _ v9 v10 y _ _ s _ _ d H1 Bd); lia|]. cbv beta. intros M (v1 & v8' & c' & z' & m' & -> & R).
      exists v1, v8', c', z', m'. replace (i + 1 + n) with (i + S n) by lia. replace (p + 8 + 8 * n) with (p + 8 * S n) by lia. split; [reflexivity|].
      replace (8 * S n) with (8 + 8 * n) by lia. rewrite <- slice_app. rewrite xin_app. rewrite slice_length by lia. replace (8 * i + 8) with (8 * (i + 1)) by lia. exact R.
    + lia.
Qed.
(** from LaneAlignedCheck to the ret *)
Lemma aligned_leads n r i p va vb v8 v9 v10 y c z s m st d : r < 8 -> rel m st -> is_bytes d -> 8 * i + (8 * n + r) <= 200 -> p + (8 * n + r) <= List.length d ->
  leads (10 * n + 70) (mkM 52 (mkG va vb (Vi (N.of_nat (8 * n + r))) (Vp Bro (1152 + 8 * Z.of_nat i)) (Vp Bda (Z.of_nat p)) (Vp Bst 0) (Vi v8) v9 v10) y c z s m d)
    (fun M => exists G' y' c' z' m', M = mkM 68 G' y' c' z' s m' d /\ rbx G' = vb /\ rel m' (xin st (8 * i) (slice d p (8 * n + r)))).
Proof.
  intros Hr H Bd Hi Hp. eapply leads_weak.
  - eapply leads_bind; [apply (lane_loop r Hr n i p va vb v8 v9 v10 y c z s m st d H Bd); lia|]. cbv beta. intros M (v1 & v8' & c' & z' & m' & -> & R).
    pose proof (rel_facts _ _ R) as (Lm & Bm & _).
    instantiate (1 := 67). destruct r as [|r].
    + eapply leads_weak.
      * ls; [reflexivity|]. ls; [rewrite add8_back by lia; reflexivity|]. ls; [reflexivity|]. ls; [reflexivity|]. apply (leads_0 0). eexists _, _, _, _, _. split; [reflexivity|]. split; [reflexivity|]. rewrite Nat.add_0_r. exact R.
      * lia.
    + eapply leads_weak.
      * ls; [reflexivity|]. ls; [rewrite add8_back by lia; reflexivity|]. pose proof (word_of_lt (i + n)) as W.
        ls; [replace (N.of_nat (S r) =? 0)%N with false by (symmetry; apply N.eqb_neq; lia); reflexivity|].
        ls; [xcbn2; rewrite Z.add_0_r; rewrite (map_read (i + n)) by lia; cbn [bind]; rewrite map_word; reflexivity|]. ls; [rewrite sx_nat by lia; rewrite Z.add_0_l; reflexivity|].
        eapply leads_bind; [apply byte_loop2; [exact Bm|exact Bd|exact Lm|lia|lia]|]. cbv beta. intros M (v1' & u' & c1 & z1 & ->). ls; [reflexivity|].
        apply (leads_0 0). eexists _, _, _, _, _. split; [reflexivity|]. split; [reflexivity|].
        pose proof (rel_xin m' _ (i + n) 0 (slice d (p + 8 * n) (S r)) R ltac:(lia) ltac:(rewrite slice_length by lia; lia) (slice_bytes _ _ _ Bd)) as X. rewrite !Nat.add_0_r in X.
        rewrite <- slice_app, xin_app, slice_length by lia. replace (8 * i + 8 * n) with (8 * (i + n)) by lia. exact X.
      * lia.
  - lia.
Qed.

Lemma slice0 (d : bytes) n : slice d 0 n = firstn n d.
Proof. reflexivity. Qed.
Lemma sub64 a b : b <= a -> (N.of_nat a < 2 ^ 63)%N -> ((N.of_nat a + (2 ^ 64 - N.of_nat b)) mod 2 ^ 64 = N.of_nat (a - b))%N.
Proof. intros H L. replace (N.of_nat a + (2 ^ 64 - N.of_nat b))%N with (N.of_nat (a - b) + 1 * 2 ^ 64)%N by lia. rewrite N.mod_add by discriminate. apply N.mod_small. lia. Qed.
Lemma add_bytes_leads m st va vb v8 v9 v10 c z s d y off len hi : rel m st -> is_bytes d -> off + len <= 200 -> len <= List.length d ->
  leads 450 (mkM 20 (mkG va vb (Vi (N.of_nat len)) (Vi (N.of_nat off + 2 ^ 32 * hi)) (Vp Bda 0) (Vp Bst 0) (Vi v8) v9 v10) y c z s m d)
    (fun M => exists G' y' c' z' m', M = mkM 68 G' y' c' z' s m' d /\ rbx G' = vb /\ rel m' (xin st off (firstn len d))).
Proof.
  intros H Bd Ho Hd. destruct (Nat.eq_dec len 0) as [->|N0].
  { eapply leads_weak.
    - ls; [reflexivity|]. ls; [reflexivity|]. ls; [reflexivity|]. ls; [reflexivity|]. apply (leads_0 0). eexists _, _, _, _, _. split; [reflexivity|]. split; [reflexivity|]. cbn [firstn]. rewrite xin_nil. exact H.
    - lia. }
  pose proof (Nat.div_mod off 8 ltac:(discriminate)) as E. pose proof (Nat.mod_upper_bound off 8 ltac:(discriminate)) as U. assert (J : off / 8 < 25) by (apply Nat.div_lt_upper_bound; lia).
  set (j := off / 8) in *. set (k := off mod 8) in *. clearbody j k. subst off. pose proof (word_of_lt j) as W. pose proof (rel_facts m st H) as (Lm & Bm & Ls & Bs).
  assert (Z0 : (N.of_nat len =? 0)%N = false) by (apply N.eqb_neq; lia).
  destruct (Nat.eq_dec k 0) as [->|K0].
  - pose proof (Nat.div_mod len 8 ltac:(discriminate)) as El. pose proof (Nat.mod_upper_bound len 8 ltac:(discriminate)) as Ul. set (n := len / 8) in *. set (r := len mod 8) in *. clearbody n r. subst len.
    eapply leads_weak.
    + ls; [reflexivity|]. ls; [rewrite Z0; reflexivity|]. ls; [reflexivity|]. ls; [reflexivity|]. ls; [rewrite land_lane by assumption; reflexivity|]. ls; [reflexivity|].
      ls; [rewrite sx_nat by lia; reflexivity|]. ls; [rewrite land7 by exact U; reflexivity|]. ls; [reflexivity|].
      replace (1152 + Z.of_nat (8 * j))%Z with (1152 + 8 * Z.of_nat j)%Z by lia. rewrite Nat.add_0_r, <- slice0.
      apply (aligned_leads n r j 0); assumption || (cbn [Nat.add]; lia).
    + lia.
  - set (t := Nat.min (8 - k) len). assert (T : 1 <= t <= len /\ t <= 8 - k /\ (t = len \/ t = 8 - k)) by (unfold t; lia).
    pose proof (Nat.div_mod (len - t) 8 ltac:(discriminate)) as El. pose proof (Nat.mod_upper_bound (len - t) 8 ltac:(discriminate)) as Ul. set (n := (len - t) / 8) in *. set (r := (len - t) mod 8) in *. clearbody n r.
    eapply leads_weak.
    + ls; [reflexivity|]. ls; [rewrite Z0; reflexivity|]. ls; [reflexivity|]. ls; [reflexivity|]. ls; [rewrite land_lane by assumption; reflexivity|]. ls; [reflexivity|].
      ls; [rewrite sx_nat by lia; reflexivity|]. ls; [rewrite land7 by exact U; replace (N.of_nat k =? 0)%N with false by (symmetry; apply N.eqb_neq; lia); reflexivity|]. ls; [reflexivity|]. ls; [reflexivity|].
      ls; [change 8%N with (N.of_nat 8); rewrite sub64 by lia; reflexivity|].
      ls; [reflexivity|].
      ls; [instantiate (1 := mkM 33 (mkG (Vi (N.of_nat k)) vb (Vi (N.of_nat len)) (Vp Bro (1152 + Z.of_nat (8 * j))) (Vp Bda 0) (Vp Bst 0) (Vi v8) (Vi (N.of_nat t)) v10) y (Some (N.of_nat (8 - k) <? N.of_nat len)%N) (Some (N.of_nat (8 - k) =? N.of_nat len)%N) s m d)|].
      { unfold t. destruct (N.ltb_spec (N.of_nat (8 - k)) (N.of_nat len)) as [A|A]; cbn [negb set_pc]; [replace (Nat.min (8 - k) len) with (8 - k) by lia|replace (Nat.min (8 - k) len) with len by lia]; reflexivity. }
      ls; [rewrite sub64 by lia; reflexivity|].
      ls; [xcbn2; rewrite Z.add_0_r; rewrite (map_read j) by (exact J || lia); cbn [bind]; rewrite map_word; rewrite <- Nat2N.inj_add; rewrite N.mod_small by lia; reflexivity|].
      ls; [rewrite sx8; reflexivity|]. ls; [rewrite sx_nat by lia; rewrite Z.add_0_l; reflexivity|].
      destruct t as [|t']; [lia|]. eapply (leads_bind 56); [eapply leads_weak; [|instantiate (1 := 7 * S t'); lia]; apply (byte_loop1 t' 0 (k + 8 * word_of j)); assumption || lia|]. cbv beta. intros M (v1 & u' & c' & z' & ->).
      instantiate (1 := S (10 * n + 70)). ls; [reflexivity|].
      replace (1152 + Z.of_nat (8 * j) + 8)%Z with (1152 + 8 * Z.of_nat (j + 1))%Z by lia. cbn [Nat.add]. rewrite El.
      assert (H1 : rel (xin m (k + 8 * word_of j) (slice d 0 (S t'))) (xin st (8 * j + k) (slice d 0 (S t')))).
      { rewrite (Nat.add_comm k). apply rel_xin; [exact H|exact J|rewrite slice_length by lia; lia|apply slice_bytes; exact Bd]. }
      destruct (Nat.eq_dec (len - S t') 0) as [Z1|Z1].
      * replace n with 0 by lia. replace r with 0 by lia. change (8 * 0 + 0) with 0.
        eapply leads_weak; [|instantiate (1 := 10); lia].
        ls; [reflexivity|]. ls; [reflexivity|]. ls; [reflexivity|]. ls; [reflexivity|]. ls; [reflexivity|]. ls; [reflexivity|]. ls; [reflexivity|].
        apply (leads_0 3). eexists _, _, _, _, _. split; [reflexivity|]. split; [reflexivity|]. replace len with (S t') by lia. rewrite <- slice0. exact H1.
      * eapply leads_conseq; [apply (aligned_leads n r (j + 1) (S t') v1 vb u' (Vi 0) v10 y c' z' s _ _ d Ul H1 Bd); lia|].
        cbv beta. intros M (G' & y' & c1 & z1 & m' & -> & GB & R). exists G', y', c1, z1, m'. split; [reflexivity|]. split; [exact GB|]. rewrite <- El in R.
        replace (8 * (j + 1)) with (8 * j + k + S t') in R by lia. rewrite <- slice0. replace len with (S t' + (len - S t')) by lia. rewrite <- slice_app, xin_app, slice_length by lia. exact R.
    + lia.
Qed.
