(** KeccakP1600_ExtractAndAddBytes of keccak/avx2 *)
From Coq Require Import Arith NArith ZArith String List Bool Lia.
From Verif Require Import Prelude SpongeModel SpongeFacts KeccakModel KeccakFacts KeccakBytes SnpMem SnpLayout SnpSim Opt64Model Opt64Facts X86Model Avx2Code Avx2Round Avx2Perm Avx2Mem Avx2Facts Avx2Calls Avx2Add Avx2Extract StateSpec PutFacts Avx2Over.
Import ListNotations.

Lemma put_more (d P e : bytes) q z : z = (Z.of_nat q + Z.of_nat (List.length P))%Z -> q + List.length P + List.length e <= List.length d -> mwrite (put d q P) z e = Ok (put d q (P ++ e)).
Proof. intros -> H. rewrite <- Nat2Z.inj_add. rewrite mwrite_put by (rewrite put_length; lia). rewrite put_app by lia. reflexivity. Qed.
Lemma read_put (d P : bytes) p q n z : z = (Z.of_nat p + Z.of_nat (List.length P))%Z -> q + List.length P <= List.length d -> p + List.length P + n <= List.length d -> q <= p \/ p + List.length P + n <= q ->
  mread (put d q P) z n = Ok (slice d (p + List.length P) n).
Proof. intros -> Hq Hp Hs. rewrite <- Nat2Z.inj_add. rewrite mread_nat by (rewrite put_length; lia). rewrite slice_put by assumption. reflexivity. Qed.

Lemma xor_byte2 a b : is_byte a -> is_byte b -> is_byte (N.lxor a b).
Proof. intros Ha Hb. exact (lxor_lt_pow2 a b 8 Ha Hb). Qed.
Ltac xa_in d P p q := xcbn2; rewrite Z.add_0_r; rewrite (read_put d P p q 1) by (reflexivity || lia); cbn [bind]; rewrite slice1 by lia; rewrite le_word1.
Ltac xa_out d P q := rewrite le_bytes1 by assumption; rewrite Z.add_0_r; rewrite (put_more d P _ q) by (reflexivity || (cbn [List.length]; lia)); cbn [bind]; reflexivity.
Lemma xa_loop1 p q d (Bd : is_bytes d) : forall n P k va vc vt v8 u y c z s m, is_bytes m -> List.length m = 200 -> k + S n <= 200 -> q + List.length P + S n <= List.length d -> p + List.length P + S n <= List.length d ->
  q <= p \/ p + List.length P + S n <= q ->
  leads (10 * S n) (mkM 215 (mkG va (Vi (N.of_nat (S n))) vc (Vp Bda (Z.of_nat q + Z.of_nat (List.length P))) (Vp Bda (Z.of_nat p + Z.of_nat (List.length P))) vt v8 (Vp Bst (Z.of_nat k)) (Vi u)) y c z s m (put d q P))
    (fun M => exists v9 u' c' z' P', M = mkM 224 (mkG va (Vi 0) vc (Vp Bda (Z.of_nat q + Z.of_nat (List.length P'))) (Vp Bda (Z.of_nat p + Z.of_nat (List.length P'))) vt v8 v9 (Vi u')) y c' z' s m (put d q P') /\ P' = P ++ xorl (slice m k (S n)) (slice d (p + List.length P) (S n))).
Proof.
  induction n as [|n IH]; intros P k va vc vt v8 u y c z s m Bm Lm Hk Hq Hp Hs; pose proof (nth_byte m k Bm) as Hb; pose proof (nth_byte d (p + List.length P) Bd) as Hd; pose proof (xor_byte2 _ _ Hb Hd) as Hx.
  - eapply leads_weak.
    + ls; [reflexivity|]. ls; [xcbn2; rewrite Z.add_0_r; rewrite mread_nat by lia; cbn [bind]; rewrite slice1 by lia; rewrite le_word1; reflexivity|].
      ls; [rewrite sx1; reflexivity|]. ls; [xa_in d P p q; rewrite merge_low by exact Hb; reflexivity|].
      ls; [rewrite sx1; reflexivity|]. ls; [xcbn2; rewrite merge_low by exact Hx; xa_out d P q|].
      ls; [rewrite sx1; reflexivity|]. ls; [change (N.of_nat 1) with 1%N; rewrite dec64 by lia; reflexivity|]. ls; [reflexivity|].
      apply (leads_0 0). eexists _, _, _, _, (P ++ [N.lxor (nth k m 0%N) (nth (p + List.length P) d 0%N)]). split; [|rewrite !slice1 by lia; reflexivity]. rewrite app_length. cbn [List.length]. rewrite Nat2Z.inj_add, !Z.add_assoc. reflexivity.
    + lia.
  - eapply leads_weak.
    + ls; [reflexivity|]. ls; [xcbn2; rewrite Z.add_0_r; rewrite mread_nat by lia; cbn [bind]; rewrite slice1 by lia; rewrite le_word1; reflexivity|].
      ls; [rewrite sx1; reflexivity|]. ls; [xa_in d P p q; rewrite merge_low by exact Hb; reflexivity|].
      ls; [rewrite sx1; reflexivity|]. ls; [xcbn2; rewrite merge_low by exact Hx; xa_out d P q|].
      ls; [rewrite sx1; reflexivity|]. ls; [rewrite dec64 by lia; replace (N.of_nat (S (S n)) - 1)%N with (N.of_nat (S n)) by lia; replace (N.of_nat (S n) =? 0)%N with false by (symmetry; apply N.eqb_neq; lia); reflexivity|]. ls; [reflexivity|].
      rewrite <- !Z.add_assoc. set (b := N.lxor _ _). replace (Z.of_nat (List.length P) + 1)%Z with (Z.of_nat (List.length (P ++ [b]))) by (rewrite app_length; cbn [List.length]; lia). replace (Z.of_nat k + 1)%Z with (Z.of_nat (k + 1)) by lia.
      eapply leads_conseq; [apply IH; [exact Bm|exact Lm|lia|rewrite app_length; cbn [List.length]; lia|rewrite app_length; cbn [List.length]; lia|rewrite app_length; cbn [List.length]; lia]|].
      cbv beta. intros M (v9 & u' & c' & z' & P' & -> & E). exists v9, u', c', z', P'. split; [reflexivity|]. rewrite E, app_length. cbn [List.length]. rewrite (slice_S m k (S n)), (slice_S d (p + List.length P) (S n)) by lia. cbn [xorl]. rewrite <- app_assoc. rewrite Nat.add_assoc. reflexivity.
    + lia.
Qed.
Lemma merge_high u b : is_byte b -> N.shiftr (256 * (u / 256) + b) 8 = (u / 256)%N.
Proof. intros H. rewrite N.shiftr_div_pow2. change (2 ^ 8)%N with 256%N. rewrite N.mul_comm, N.div_add_l by discriminate. rewrite (N.div_small b) by exact H. apply N.add_0_r. Qed.
Lemma low_is_byte w : is_byte (w mod 2 ^ 8).
Proof. apply N.mod_lt. discriminate. Qed.
Lemma xa_loop2 p q d (Bd : is_bytes d) : forall n P w va vb vc vt v9 y c z s m, n < 200 -> q + List.length P + S n <= List.length d -> p + List.length P + S n <= List.length d ->
  q <= p \/ p + List.length P + S n <= q ->
  leads (10 * S n) (mkM 243 (mkG va vb vc (Vp Bda (Z.of_nat q + Z.of_nat (List.length P))) (Vp Bda (Z.of_nat p + Z.of_nat (List.length P))) vt (Vi (N.of_nat (S n))) v9 (Vi w)) y c z s m (put d q P))
    (fun M => exists u' c' z' P', M = mkM 251 (mkG va vb vc (Vp Bda (Z.of_nat q + Z.of_nat (List.length P'))) (Vp Bda (Z.of_nat p + Z.of_nat (List.length P'))) vt (Vi 0) v9 (Vi u')) y c' z' s m (put d q P') /\ P' = P ++ xorl (le_bytes (S n) w) (slice d (p + List.length P) (S n))).
Proof.
  induction n as [|n IH]; intros P w va vb vc vt v9 y c z s m Hn Hq Hp Hs; pose proof (low_is_byte w) as Hb; pose proof (nth_byte d (p + List.length P) Bd) as Hd; pose proof (xor_byte2 _ _ Hb Hd) as Hx.
  - eapply leads_weak.
    + ls; [reflexivity|]. ls; [xa_in d P p q; reflexivity|].
      ls; [rewrite sx1; reflexivity|]. ls; [xcbn2; rewrite merge_low by exact Hx; xa_out d P q|].
      ls; [rewrite sx1; reflexivity|]. ls; [reflexivity|]. ls; [change (N.of_nat 1) with 1%N; rewrite dec64 by lia; reflexivity|]. ls; [reflexivity|].
      apply (leads_0 0). eexists _, _, _, (P ++ [N.lxor (w mod 2 ^ 8) (nth (p + List.length P) d 0%N)]). split; [|rewrite !slice1 by lia; reflexivity]. rewrite app_length. cbn [List.length]. rewrite Nat2Z.inj_add, !Z.add_assoc. reflexivity.
    + lia.
  - eapply leads_weak.
    + ls; [reflexivity|]. ls; [xa_in d P p q; reflexivity|].
      ls; [rewrite sx1; reflexivity|]. ls; [xcbn2; rewrite merge_low by exact Hx; xa_out d P q|].
      ls; [rewrite sx1; reflexivity|]. ls; [rewrite merge_high by exact Hx; reflexivity|]. ls; [rewrite dec64 by lia; replace (N.of_nat (S (S n)) - 1)%N with (N.of_nat (S n)) by lia; replace (N.of_nat (S n) =? 0)%N with false by (symmetry; apply N.eqb_neq; lia); reflexivity|]. ls; [reflexivity|].
      rewrite <- !Z.add_assoc. set (b := N.lxor _ _). replace (Z.of_nat (List.length P) + 1)%Z with (Z.of_nat (List.length (P ++ [b]))) by (rewrite app_length; cbn [List.length]; lia).
      eapply leads_conseq; [apply IH; [lia|rewrite app_length; cbn [List.length]; lia|rewrite app_length; cbn [List.length]; lia|rewrite app_length; cbn [List.length]; lia]|].
      cbv beta. intros M (u' & c' & z' & P' & -> & E). exists u', c', z', P'. split; [reflexivity|]. rewrite E, app_length. cbn [List.length]. rewrite (slice_S d (p + List.length P) (S n)) by lia. change (le_bytes (S (S n)) w) with ((w mod 256)%N :: le_bytes (S n) (w / 256)). cbn [xorl]. rewrite <- app_assoc. rewrite Nat.add_assoc. reflexivity.
    + lia.
Qed.
Lemma xor_words (a b : bytes) : is_bytes a -> is_bytes b -> List.length a = 8 -> List.length b = 8 -> le_bytes 8 (N.lxor (le_word a) (le_word b)) = xorl a b.
Proof. intros Ha Hb La Lb. rewrite le_bytes_lxor. rewrite !le_bytes_first by (assumption || lia). rewrite !firstn_all2 by lia. reflexivity. Qed.
(** whole lanes, from LaneAlignedCheck to LastIncompleteLane *)
Lemma xa_lanes p q d (Bd : is_bytes d) r (Hr : r < 8) : forall n i P va vb v9 u y c z s m st, rel m st -> i + n <= 25 -> q + List.length P + 8 * n <= List.length d -> p + List.length P + 8 * n <= List.length d -> q <= p \/ p + List.length P + 8 * n <= q ->
  leads (15 * n + 3) (mkM 234 (mkG va vb (Vp Bro (1152 + 8 * Z.of_nat i)) (Vp Bda (Z.of_nat q + Z.of_nat (List.length P))) (Vp Bda (Z.of_nat p + Z.of_nat (List.length P))) (Vp Bst 0) (Vi (N.of_nat (8 * n + r))) v9 (Vi u)) y c z s m (put d q P))
    (fun M => exists v1 u' c' z' P', M = mkM 237 (mkG v1 vb (Vp Bro (1152 + 8 * Z.of_nat (i + n))) (Vp Bda (Z.of_nat q + Z.of_nat (List.length P'))) (Vp Bda (Z.of_nat p + Z.of_nat (List.length P'))) (Vp Bst 0) (Vi (N.of_nat r + (2 ^ 64 - 8))) v9 (Vi u')) y c' z' s m (put d q P') /\
      P' = P ++ xorl (slice st (8 * i) (8 * n)) (slice d (p + List.length P) (8 * n))).
Proof.
  induction n as [|n IH]; intros i P va vb v9 u y c z s m st H Hi Hq Hp Hs.
  - eapply leads_weak.
    + ls; [reflexivity|]. ls; [change (8 * 0) with 0; cbn [Nat.add]; rewrite sub8_borrow by lia; replace (N.of_nat r <? 8)%N with true by (symmetry; apply N.ltb_lt; lia); reflexivity|]. ls; [reflexivity|].
      apply (leads_0 0). eexists _, _, _, _, P. rewrite !Nat.add_0_r. split; [reflexivity|]. unfold slice. cbn [Nat.mul firstn xorl]. rewrite app_nil_r. reflexivity.
    + lia.
  - pose proof (rel_facts m st H) as (Lm & Bm & Ls & Bs). pose proof (word_of_lt i) as W. pose proof (slice_length m (8 * word_of i) 8 ltac:(lia)) as L8. pose proof (slice_length d (p + List.length P) 8 ltac:(lia)) as L8'. eapply leads_weak.
    + ls; [reflexivity|]. ls; [rewrite sub8 by lia; replace (N.of_nat (8 * S n + r) - 8)%N with (N.of_nat (8 * n + r)) by lia; replace (N.of_nat (8 * S n + r) <? 8)%N with false by (symmetry; apply N.ltb_ge; lia); reflexivity|]. ls; [reflexivity|].
      ls; [reflexivity|]. ls; [xcbn2; rewrite Z.add_0_r; rewrite (map_read i) by lia; cbn [bind]; rewrite map_word; reflexivity|]. ls; [rewrite sx8; reflexivity|]. ls; [rewrite sx_nat by lia; reflexivity|].
      ls; [xcbn2; rewrite Z.add_0_r; rewrite Z.add_0_l; rewrite mread_nat by lia; cbn [bind]; reflexivity|].
      ls; [xcbn2; rewrite Z.add_0_r; rewrite (read_put d P p q 8) by (reflexivity || lia); cbn [bind]; reflexivity|]. ls; [rewrite sx8; reflexivity|].
      ls; [xcbn2; rewrite xor_words by (assumption || (apply slice_bytes; assumption)); rewrite Z.add_0_r; rewrite (put_more d P _ q) by (reflexivity || (rewrite xorl_length; lia)); cbn [bind]; reflexivity|]. ls; [rewrite sx8; reflexivity|].
      rewrite <- !(Z.add_assoc (Z.of_nat _)). set (b := xorl _ _). assert (Lb : List.length b = 8) by (unfold b; rewrite xorl_length; lia).
      replace (Z.of_nat (List.length P) + 8)%Z with (Z.of_nat (List.length (P ++ b))) by (rewrite app_length; lia). replace (1152 + 8 * Z.of_nat i + 8)%Z with (1152 + 8 * Z.of_nat (i + 1))%Z by lia.
      eapply leads_conseq; [apply (IH (i + 1) _ _ vb v9 _ y _ _ s _ st H); [lia|rewrite app_length; lia|rewrite app_length; lia|rewrite app_length; lia]|]. cbv beta. intros M (v1 & u' & c' & z' & P' & -> & E).
      exists v1, u', c', z', P'. replace (i + 1 + n) with (i + S n) by lia. split; [reflexivity|].
      rewrite E, app_length, Lb. rewrite <- app_assoc. f_equal. unfold b. rewrite (rel_slice m st i H) by lia. replace (8 * S n) with (8 + 8 * n) by lia. rewrite <- (slice_app st), <- (slice_app d). rewrite xorl_app by (rewrite !slice_length by lia; reflexivity). replace (8 * (i + 1)) with (8 * i + 8) by lia. rewrite Nat.add_assoc. reflexivity.
    + lia.
Qed.
(** from LaneAlignedCheck to the ret; the stack holds the saved r10 and rbx *)
Lemma xa_aligned p q d (Bd : is_bytes d) n r i P va vb v9 u y c z vt vs s m st : r < 8 -> rel m st -> 8 * i + (8 * n + r) <= 200 -> q + List.length P + (8 * n + r) <= List.length d -> p + List.length P + (8 * n + r) <= List.length d -> q <= p \/ p + List.length P + (8 * n + r) <= q ->
  leads (15 * n + 90) (mkM 234 (mkG va vb (Vp Bro (1152 + 8 * Z.of_nat i)) (Vp Bda (Z.of_nat q + Z.of_nat (List.length P))) (Vp Bda (Z.of_nat p + Z.of_nat (List.length P))) (Vp Bst 0) (Vi (N.of_nat (8 * n + r))) v9 (Vi u)) y c z (SV vt :: SV vs :: s) m (put d q P))
    (fun M => exists G' y' c' z', M = mkM 254 G' y' c' z' s m (put d q (P ++ xorl (slice st (8 * i) (8 * n + r)) (slice d (p + List.length P) (8 * n + r)))) /\ rbx G' = vs).
Proof.
  intros Hr H Hi Hq Hp Hs. pose proof (rel_facts m st H) as (Lm & Bm & Ls & Bs). eapply leads_weak.
  - eapply leads_bind; [apply (xa_lanes p q d Bd r Hr n i P va vb v9 u y c z (SV vt :: SV vs :: s) m st H); lia|]. cbv beta. intros M (v1 & u' & c' & z' & P' & -> & EP).
    assert (LP : List.length P' = List.length P + 8 * n) by (rewrite EP, app_length, xorl_length, !slice_length by lia; lia).
    instantiate (1 := 87). destruct r as [|r].
    + eapply leads_weak.
      * ls; [reflexivity|]. ls; [rewrite add8_back by lia; reflexivity|]. ls; [reflexivity|]. ls; [reflexivity|]. ls; [reflexivity|]. ls; [reflexivity|]. apply (leads_0 0). eexists _, _, _, _. split; [rewrite Nat.add_0_r, <- EP; reflexivity|reflexivity].
      * lia.
    + pose proof (word_of_lt (i + n)) as W.
      assert (Eq : P' ++ xorl (le_bytes (S r) (le_word (slice m (8 * word_of (i + n)) 8))) (slice d (p + List.length P') (S r)) = P ++ xorl (slice st (8 * i) (8 * n + S r)) (slice d (p + List.length P) (8 * n + S r))).
      { rewrite LP. rewrite EP. rewrite <- app_assoc. f_equal. rewrite <- (slice_app st), <- (slice_app d). rewrite xorl_app by (rewrite !slice_length by lia; reflexivity). rewrite Nat.add_assoc. f_equal. f_equal.
        rewrite le_bytes_first by (try (apply slice_bytes; exact Bm); rewrite slice_length by lia; lia).
        rewrite (rel_slice m st (i + n) H) by lia. replace (8 * i + 8 * n) with (8 * (i + n)) by lia. change (firstn (S r) (slice st (8 * (i + n)) 8)) with (slice (slice st (8 * (i + n)) 8) 0 (S r)). rewrite slice_slice by lia. rewrite Nat.add_0_r. reflexivity. }
      eapply leads_weak.
      * ls; [reflexivity|]. ls; [rewrite add8_back by lia; reflexivity|].
        ls; [replace (N.of_nat (S r) =? 0)%N with false by (symmetry; apply N.eqb_neq; lia); reflexivity|].
        ls; [xcbn2; rewrite Z.add_0_r; rewrite (map_read (i + n)) by lia; cbn [bind]; rewrite map_word; reflexivity|]. ls; [rewrite sx_nat by lia; rewrite Z.add_0_l; reflexivity|].
        ls; [xcbn2; rewrite Z.add_0_r; rewrite mread_nat by lia; cbn [bind]; reflexivity|].
        eapply leads_bind; [apply (xa_loop2 p q d Bd); lia|]. cbv beta. intros M (u1 & c1 & z1 & P1 & -> & E1). ls; [reflexivity|]. ls; [reflexivity|]. ls; [reflexivity|].
        rewrite E1, Eq. apply (leads_0 0). eexists _, _, _, _. split; reflexivity.
      * lia.
  - lia.
Qed.

Lemma xadd_leads m st va vb v9 v10 c z s d y off len hi p q : rel m st -> is_bytes d -> off + len <= 200 -> p + len <= List.length d -> q + len <= List.length d -> q <= p \/ p + len <= q ->
  leads 700 (mkM 195 (mkG va vb (Vi (N.of_nat off + 2 ^ 32 * hi)) (Vp Bda (Z.of_nat q)) (Vp Bda (Z.of_nat p)) (Vp Bst 0) (Vi (N.of_nat len)) v9 (Vi v10)) y c z s m d)
    (fun M => exists G' y' c' z', M = mkM 254 G' y' c' z' s m (put d q (xorl (slice st off len) (slice d p len))) /\ rbx G' = vb).
Proof.
  intros H Bd Ho Hp Hq Hs. destruct (Nat.eq_dec len 0) as [->|N0].
  { eapply leads_weak.
    - ls; [reflexivity|]. ls; [reflexivity|]. ls; [reflexivity|]. ls; [reflexivity|]. ls; [reflexivity|]. ls; [reflexivity|]. ls; [reflexivity|]. ls; [reflexivity|]. apply (leads_0 0). eexists _, _, _, _. split; [unfold slice; cbn [firstn xorl]; rewrite put_nil; reflexivity|reflexivity].
    - lia. }
  pose proof (Nat.div_mod off 8 ltac:(discriminate)) as E. pose proof (Nat.mod_upper_bound off 8 ltac:(discriminate)) as U. assert (J : off / 8 < 25) by (apply Nat.div_lt_upper_bound; lia).
  set (j := off / 8) in *. set (k := off mod 8) in *. clearbody j k. subst off. pose proof (word_of_lt j) as W. pose proof (rel_facts m st H) as (Lm & Bm & Ls & Bs).
  assert (Z0 : (N.of_nat len =? 0)%N = false) by (apply N.eqb_neq; lia).
  assert (D0 : forall pc G y c z s m, mkM pc G y c z s m d = mkM pc G y c z s m (put d q [])) by (intros; rewrite put_nil; reflexivity).
  assert (Zp : Z.of_nat p = (Z.of_nat p + Z.of_nat (List.length (@nil N)))%Z) by (cbn; lia). assert (Zq : Z.of_nat q = (Z.of_nat q + Z.of_nat (List.length (@nil N)))%Z) by (cbn; lia).
  destruct (Nat.eq_dec k 0) as [->|K0].
  - pose proof (Nat.div_mod len 8 ltac:(discriminate)) as El. pose proof (Nat.mod_upper_bound len 8 ltac:(discriminate)) as Ul. set (n := len / 8) in *. set (r := len mod 8) in *. clearbody n r. rewrite El in *. clear El len.
    eapply leads_weak.
    + ls; [reflexivity|]. ls; [reflexivity|]. ls; [reflexivity|]. ls; [rewrite Z0; reflexivity|]. ls; [reflexivity|]. ls; [reflexivity|]. ls; [rewrite land_lane by assumption; reflexivity|]. ls; [reflexivity|].
      ls; [rewrite sx_nat by lia; reflexivity|]. ls; [rewrite land7 by exact U; reflexivity|]. ls; [reflexivity|].
      replace (1152 + Z.of_nat (8 * j))%Z with (1152 + 8 * Z.of_nat j)%Z by lia. rewrite D0, Zp, Zq.
      eapply leads_conseq; [apply (xa_aligned p q d Bd n r j [] _ _ _ _ _ _ _ _ _ _ _ st); assumption || (cbn [List.length]; lia)|]. cbv beta. cbn [app List.length]. intros M (G' & y' & c' & z' & -> & R). exists G', y', c', z'. split; [|exact R]. rewrite !Nat.add_0_r. reflexivity.
    + lia.
  - set (t := Nat.min (8 - k) len). assert (T : 1 <= t <= len /\ t <= 8 - k /\ (t = len \/ t = 8 - k)) by (unfold t; lia).
    pose proof (Nat.div_mod (len - t) 8 ltac:(discriminate)) as El. pose proof (Nat.mod_upper_bound (len - t) 8 ltac:(discriminate)) as Ul. set (n := (len - t) / 8) in *. set (r := (len - t) mod 8) in *. clearbody n r.
    eapply leads_weak.
    + ls; [reflexivity|]. ls; [reflexivity|]. ls; [reflexivity|]. ls; [rewrite Z0; reflexivity|]. ls; [reflexivity|]. ls; [reflexivity|]. ls; [rewrite land_lane by assumption; reflexivity|]. ls; [reflexivity|].
      ls; [rewrite sx_nat by lia; reflexivity|]. ls; [rewrite land7 by exact U; replace (N.of_nat k =? 0)%N with false by (symmetry; apply N.eqb_neq; lia); reflexivity|]. ls; [reflexivity|]. ls; [reflexivity|].
      ls; [change 8%N with (N.of_nat 8); rewrite sub64 by lia; reflexivity|].
      ls; [reflexivity|].
      ls; [instantiate (1 := mkM 210 (mkG (Vi (N.of_nat k)) (Vi (N.of_nat t)) (Vp Bro (1152 + Z.of_nat (8 * j))) (Vp Bda (Z.of_nat q)) (Vp Bda (Z.of_nat p)) (Vp Bst 0) (Vi (N.of_nat len)) (Vp Bro 1152) (Vi v10)) y (Some (N.of_nat (8 - k) <? N.of_nat len)%N) (Some (N.of_nat (8 - k) =? N.of_nat len)%N) (SV (Vi v10) :: SV vb :: s) m d)|].
      { unfold t. destruct (N.ltb_spec (N.of_nat (8 - k)) (N.of_nat len)) as [A|A]; cbn [negb set_pc]; [replace (Nat.min (8 - k) len) with (8 - k) by lia|replace (Nat.min (8 - k) len) with len by lia]; reflexivity. }
      ls; [rewrite sub64 by lia; reflexivity|].
      ls; [xcbn2; rewrite Z.add_0_r; rewrite (map_read j) by (exact J || lia); cbn [bind]; rewrite map_word; reflexivity|].
      ls; [rewrite sx8; reflexivity|]. ls; [rewrite sx_nat by lia; rewrite Z.add_0_l; reflexivity|]. ls; [rewrite sx_nat by lia; rewrite <- Nat2Z.inj_add; reflexivity|].
      destruct t as [|t']; [lia|]. rewrite D0, Zp, Zq. eapply (leads_bind 80); [eapply leads_weak; [|instantiate (1 := 10 * S t'); lia]; apply (xa_loop1 p q d Bd t' [] (8 * word_of j + k)); assumption || (cbn [List.length]; lia)|]. cbv beta. intros M (v1 & u' & c' & z' & P' & -> & EP). cbn [app List.length] in EP. rewrite Nat.add_0_r in EP.
      instantiate (1 := S (15 * n + 90)). ls; [reflexivity|].
      replace (1152 + Z.of_nat (8 * j) + 8)%Z with (1152 + 8 * Z.of_nat (j + 1))%Z by lia. rewrite El. rewrite (rel_slice_part m st j k (S t') H J) in EP by lia.
      assert (LS : List.length P' = S t') by (rewrite EP, xorl_length, !slice_length by lia; lia).
      destruct (Nat.eq_dec (len - S t') 0) as [Z1|Z1].
      * replace n with 0 by lia. replace r with 0 by lia. change (8 * 0 + 0) with 0.
        eapply leads_weak; [|instantiate (1 := 12); lia].
        ls; [reflexivity|]. ls; [reflexivity|]. ls; [reflexivity|]. ls; [reflexivity|]. ls; [reflexivity|]. ls; [reflexivity|]. ls; [reflexivity|]. ls; [reflexivity|]. ls; [reflexivity|].
        replace len with (S t') by lia. rewrite <- EP. apply (leads_0 3). eexists _, _, _, _. split; reflexivity.
      * eapply leads_conseq; [apply (xa_aligned p q d Bd n r (j + 1) _ _ _ _ _ _ _ _ _ _ _ _ st); (assumption || lia)|].
        cbv beta. intros M (G' & y' & c1 & z1 & -> & R). exists G', y', c1, z1. split; [|exact R]. rewrite <- El, LS, EP.
        replace (8 * (j + 1)) with (8 * j + k + S t') by lia. rewrite <- xorl_app by (rewrite !slice_length by lia; reflexivity). rewrite !slice_app. replace (S t' + (len - S t')) with len by lia. reflexivity.
    + lia.
Qed.
