(** KeccakP1600_OverwriteBytes of keccak/avx2 *)
From Coq Require Import Arith NArith ZArith String List Bool Lia.
From Verif Require Import Prelude SpongeModel SpongeFacts KeccakModel KeccakFacts KeccakBytes SnpMem SnpLayout SnpSim Opt64Model Opt64Facts X86Model Avx2Code Avx2Round Avx2Perm Avx2Mem Avx2Facts Avx2Calls Avx2Add Avx2Extract StateSpec PutFacts.
Import ListNotations.

Lemma mwrite_put m k d : k + List.length d <= List.length m -> mwrite m (Z.of_nat k) d = Ok (put m k d).
Proof. apply mwrite_nat. Qed.
Lemma put_cons m q b d : q + S (List.length d) <= List.length m -> put m q (b :: d) = put (put m q [b]) (q + 1) d.
Proof. intros H. change (b :: d) with ([b] ++ d). apply put_app. cbn [List.length]. lia. Qed.
Lemma le_byte1 b : is_byte b -> le_bytes 1 b = [b].
Proof. apply le_bytes1. Qed.
Lemma rel_put m st j k d : rel m st -> j < 25 -> k + List.length d <= 8 -> is_bytes d -> rel (put m (8 * word_of j + k) d) (put st (8 * j + k) d).
Proof.
  intros H Hj Hk Hd. pose proof (rel_facts m st H) as (Lm & Bm & Ls & Bs). pose proof (word_of_lt j) as W. rewrite !put_xin by lia.
  replace (diff m (8 * word_of j + k) d) with (diff st (8 * j + k) d) by (unfold diff; rewrite (rel_slice_part m st j k (List.length d) H Hj Hk); reflexivity).
  apply rel_xin; [exact H|exact Hj|rewrite diff_length by lia; exact Hk|apply diff_bytes; assumption].
Qed.

Ltac put_byte m p q Hb :=
  xcbn2; rewrite merge_low by exact Hb; rewrite Z.add_0_r; rewrite le_byte1 by exact Hb; rewrite mwrite_put by (cbn [List.length]; lia); cbn [bind]; reflexivity.
Lemma o_byte_loop1 : forall n p q u vb vc vd vt v10 y c z s m d, is_bytes m -> is_bytes d -> List.length m = 200 -> q + S n <= 200 -> p + S n <= List.length d ->
  leads (7 * S n) (mkM 86 (mkG (Vp Bst (Z.of_nat q)) vb vc vd (Vp Bda (Z.of_nat p)) vt (Vi u) (Vi (N.of_nat (S n))) v10) y c z s m d)
    (fun M => exists v1 u' c' z', M = mkM 93 (mkG v1 vb vc vd (Vp Bda (Z.of_nat (p + S n))) vt (Vi u') (Vi 0) v10) y c' z' s (put m q (slice d p (S n))) d).
Proof.
  induction n as [|n IH]; intros p q u vb vc vd vt v10 y c z s m d Bm Bd Lm Hq Hp; pose proof (nth_byte d p Bd) as Hb.
  - eapply leads_weak.
    + ls; [reflexivity|]. ls; [xcbn2; rewrite Z.add_0_r; rewrite mread_nat by lia; cbn [bind]; rewrite slice1 by lia; rewrite le_word1; reflexivity|].
      ls; [rewrite sx1; reflexivity|]. ls; [put_byte m p q Hb|]. ls; [rewrite sx1; reflexivity|]. ls; [change (N.of_nat 1) with 1%N; rewrite dec64 by lia; reflexivity|]. ls; [reflexivity|].
      apply (leads_0 0). eexists _, _, _, _. rewrite slice1 by lia. replace (Z.of_nat p + 1)%Z with (Z.of_nat (p + 1)) by lia. reflexivity.
    + lia.
  - eapply leads_weak.
    + ls; [reflexivity|]. ls; [xcbn2; rewrite Z.add_0_r; rewrite mread_nat by lia; cbn [bind]; rewrite slice1 by lia; rewrite le_word1; reflexivity|].
      ls; [rewrite sx1; reflexivity|]. ls; [put_byte m p q Hb|]. ls; [rewrite sx1; reflexivity|]. ls; [rewrite dec64 by lia; replace (N.of_nat (S (S n)) - 1)%N with (N.of_nat (S n)) by lia; replace (N.of_nat (S n) =? 0)%N with false by (symmetry; apply N.eqb_neq; lia); reflexivity|]. ls; [reflexivity|].
      replace (Z.of_nat p + 1)%Z with (Z.of_nat (p + 1)) by lia. replace (Z.of_nat q + 1)%Z with (Z.of_nat (q + 1)) by lia.
      eapply leads_weak; [|apply Nat.le_refl]. match goal with |- leads _ (mkM _ (mkG _ _ _ _ _ _ (Vi ?u') _ _) _ ?c' ?z' _ ?m' _) _ =>
        destruct (IH (p + 1) (q + 1) u' vb vc vd vt v10 y c' z' s m' d) as (k & M & L & R & v1 & u1 & c1 & z1 & ->); [apply put_bytes; [exact Bm|apply one_byte; exact Hb]|exact Bd|rewrite put_length by (cbn [List.length]; lia); exact Lm|lia|lia|] end.
      exists k. eexists. split; [exact L|]. split; [exact R|]. exists v1, u1, c1, z1. rewrite (slice_S d p (S n)) by lia. rewrite (put_cons m q _ (slice d (p + 1) (S n))) by (rewrite slice_length by lia; lia). replace (p + 1 + S n) with (p + S (S n)) by lia. reflexivity.
    + lia.
Qed.
Lemma o_byte_loop2 : forall n p q u vb vd vt v9 v10 y c z s m d, is_bytes m -> is_bytes d -> List.length m = 200 -> q + S n <= 200 -> p + S n <= List.length d ->
  leads (7 * S n) (mkM 109 (mkG (Vp Bst (Z.of_nat q)) vb (Vi (N.of_nat (S n))) vd (Vp Bda (Z.of_nat p)) vt (Vi u) v9 v10) y c z s m d)
    (fun M => exists v1 u' c' z', M = mkM 116 (mkG v1 vb (Vi 0) vd (Vp Bda (Z.of_nat (p + S n))) vt (Vi u') v9 v10) y c' z' s (put m q (slice d p (S n))) d).
Proof.
  induction n as [|n IH]; intros p q u vb vd vt v9 v10 y c z s m d Bm Bd Lm Hq Hp; pose proof (nth_byte d p Bd) as Hb.
  - eapply leads_weak.
    + ls; [reflexivity|]. ls; [xcbn2; rewrite Z.add_0_r; rewrite mread_nat by lia; cbn [bind]; rewrite slice1 by lia; rewrite le_word1; reflexivity|].
      ls; [rewrite sx1; reflexivity|]. ls; [put_byte m p q Hb|]. ls; [rewrite sx1; reflexivity|]. ls; [change (N.of_nat 1) with 1%N; rewrite dec64 by lia; reflexivity|]. ls; [reflexivity|].
      apply (leads_0 0). eexists _, _, _, _. rewrite slice1 by lia. replace (Z.of_nat p + 1)%Z with (Z.of_nat (p + 1)) by lia. reflexivity.
    + lia.
  - eapply leads_weak.
    + ls; [reflexivity|]. ls; [xcbn2; rewrite Z.add_0_r; rewrite mread_nat by lia; cbn [bind]; rewrite slice1 by lia; rewrite le_word1; reflexivity|].
      ls; [rewrite sx1; reflexivity|]. ls; [put_byte m p q Hb|]. ls; [rewrite sx1; reflexivity|]. ls; [rewrite dec64 by lia; replace (N.of_nat (S (S n)) - 1)%N with (N.of_nat (S n)) by lia; replace (N.of_nat (S n) =? 0)%N with false by (symmetry; apply N.eqb_neq; lia); reflexivity|]. ls; [reflexivity|].
      replace (Z.of_nat p + 1)%Z with (Z.of_nat (p + 1)) by lia. replace (Z.of_nat q + 1)%Z with (Z.of_nat (q + 1)) by lia.
      eapply leads_weak; [|apply Nat.le_refl]. match goal with |- leads _ (mkM _ (mkG _ _ _ _ _ _ (Vi ?u') _ _) _ ?c' ?z' _ ?m' _) _ =>
        destruct (IH (p + 1) (q + 1) u' vb vd vt v9 v10 y c' z' s m' d) as (k & M & L & R & v1 & u1 & c1 & z1 & ->); [apply put_bytes; [exact Bm|apply one_byte; exact Hb]|exact Bd|rewrite put_length by (cbn [List.length]; lia); exact Lm|lia|lia|] end.
      exists k. eexists. split; [exact L|]. split; [exact R|]. exists v1, u1, c1, z1. rewrite (slice_S d p (S n)) by lia. rewrite (put_cons m q _ (slice d (p + 1) (S n))) by (rewrite slice_length by lia; lia). replace (p + 1 + S n) with (p + S (S n)) by lia. reflexivity.
    + lia.
Qed.

(** whole lanes, from LaneAlignedCheck to LastIncompleteLane *)
Lemma o_lane_loop r (Hr : r < 8) : forall n i p va vb v8 v9 v10 y c z s m st d, rel m st -> is_bytes d -> i + n <= 25 -> p + 8 * n <= List.length d ->
  leads (10 * n + 3) (mkM 101 (mkG va vb (Vi (N.of_nat (8 * n + r))) (Vp Bro (1152 + 8 * Z.of_nat i)) (Vp Bda (Z.of_nat p)) (Vp Bst 0) (Vi v8) v9 v10) y c z s m d)
    (fun M => exists v1 v8' c' z' m', M = mkM 104 (mkG v1 vb (Vi (N.of_nat r + (2 ^ 64 - 8))) (Vp Bro (1152 + 8 * Z.of_nat (i + n))) (Vp Bda (Z.of_nat (p + 8 * n))) (Vp Bst 0) (Vi v8') v9 v10) y c' z' s m' d /\
      rel m' (put st (8 * i) (slice d p (8 * n)))).
Proof.
  induction n as [|n IH]; intros i p va vb v8 v9 v10 y c z s m st d H Bd Hi Hp.
  - eapply leads_weak.
    + ls; [reflexivity|]. ls; [change (8 * 0) with 0; cbn [Nat.add]; rewrite sub8_borrow by lia; replace (N.of_nat r <? 8)%N with true by (symmetry; apply N.ltb_lt; lia); reflexivity|]. ls; [reflexivity|].
      apply (leads_0 0). eexists _, _, _, _, _. rewrite !Nat.add_0_r. split; [reflexivity|]. unfold slice. cbn [Nat.mul firstn]. rewrite put_nil. exact H.
    + lia.
  - pose proof (rel_facts m st H) as (Lm & Bm & Ls & Bs). pose proof (word_of_lt i) as W. eapply leads_weak.
    + ls; [reflexivity|]. ls; [rewrite sub8 by lia; replace (N.of_nat (8 * S n + r) - 8)%N with (N.of_nat (8 * n + r)) by lia; replace (N.of_nat (8 * S n + r) <? 8)%N with false by (symmetry; apply N.ltb_ge; lia); reflexivity|]. ls; [reflexivity|].
      ls; [reflexivity|]. ls; [xcbn2; rewrite Z.add_0_r; rewrite mread_nat by lia; cbn [bind]; reflexivity|]. ls; [rewrite sx8; reflexivity|].
      ls; [xcbn2; rewrite Z.add_0_r; rewrite (map_read i) by lia; cbn [bind]; rewrite map_word; reflexivity|]. ls; [rewrite sx8; reflexivity|]. ls; [rewrite sx_nat by lia; reflexivity|].
      ls; [xcbn2; rewrite Z.add_0_r; rewrite Z.add_0_l; rewrite slice_word by (assumption || lia); rewrite mwrite_put by (rewrite slice_length by lia; lia); cbn [bind]; reflexivity|].
      replace (Z.of_nat p + 8)%Z with (Z.of_nat (p + 8)) by lia. replace (1152 + 8 * Z.of_nat i + 8)%Z with (1152 + 8 * Z.of_nat (i + 1))%Z by lia.
      assert (H1 : rel (put m (8 * word_of i) (slice d p 8)) (put st (8 * i) (slice d p 8))).
      { pose proof (rel_put m st i 0 (slice d p 8) H ltac:(lia) ltac:(rewrite slice_length by lia; lia) (slice_bytes _ _ _ Bd)) as X. rewrite !Nat.add_0_r in X. exact X. }
      eapply leads_conseq; [apply (IH (i + 1) (p + 8) _ vb _ v9 v10 y _ _ s _ _ d H1 Bd); lia|]. cbv beta. intros M (v1 & v8' & c' & z' & m' & -> & R).
      exists v1, v8', c', z', m'. replace (i + 1 + n) with (i + S n) by lia. replace (p + 8 + 8 * n) with (p + 8 * S n) by lia. split; [reflexivity|].
      replace (8 * S n) with (8 + 8 * n) by lia. rewrite <- slice_app. rewrite put_app by (rewrite !slice_length by lia; lia). rewrite slice_length by lia. replace (8 * i + 8) with (8 * (i + 1)) by lia. exact R.
    + lia.
Qed.
(** from LaneAlignedCheck to the ret *)
Lemma o_aligned_leads n r i p va vb v8 v9 v10 y c z s m st d : r < 8 -> rel m st -> is_bytes d -> 8 * i + (8 * n + r) <= 200 -> p + (8 * n + r) <= List.length d ->
  leads (10 * n + 70) (mkM 101 (mkG va vb (Vi (N.of_nat (8 * n + r))) (Vp Bro (1152 + 8 * Z.of_nat i)) (Vp Bda (Z.of_nat p)) (Vp Bst 0) (Vi v8) v9 v10) y c z s m d)
    (fun M => exists G' y' c' z' m', M = mkM 117 G' y' c' z' s m' d /\ rbx G' = vb /\ rel m' (put st (8 * i) (slice d p (8 * n + r)))).
Proof.
  intros Hr H Bd Hi Hp. eapply leads_weak.
  - eapply leads_bind; [apply (o_lane_loop r Hr n i p va vb v8 v9 v10 y c z s m st d H Bd); lia|]. cbv beta. intros M (v1 & v8' & c' & z' & m' & -> & R).
    pose proof (rel_facts _ _ R) as (Lm & Bm & _).
    instantiate (1 := 67). destruct r as [|r].
    + eapply leads_weak.
      * ls; [reflexivity|]. ls; [rewrite add8_back by lia; reflexivity|]. ls; [reflexivity|]. ls; [reflexivity|]. apply (leads_0 0). eexists _, _, _, _, _. split; [reflexivity|]. split; [reflexivity|]. rewrite Nat.add_0_r. exact R.
      * lia.
    + eapply leads_weak.
      * ls; [reflexivity|]. ls; [rewrite add8_back by lia; reflexivity|]. pose proof (word_of_lt (i + n)) as W.
        ls; [replace (N.of_nat (S r) =? 0)%N with false by (symmetry; apply N.eqb_neq; lia); reflexivity|].
        ls; [xcbn2; rewrite Z.add_0_r; rewrite (map_read (i + n)) by lia; cbn [bind]; rewrite map_word; reflexivity|]. ls; [rewrite sx_nat by lia; rewrite Z.add_0_l; reflexivity|].
        eapply leads_bind; [apply o_byte_loop2; [exact Bm|exact Bd|exact Lm|lia|lia]|]. cbv beta. intros M (v1' & u' & c1 & z1 & ->). ls; [reflexivity|].
        apply (leads_0 0). eexists _, _, _, _, _. split; [reflexivity|]. split; [reflexivity|].
        pose proof (rel_put m' _ (i + n) 0 (slice d (p + 8 * n) (S r)) R ltac:(lia) ltac:(rewrite slice_length by lia; lia) (slice_bytes _ _ _ Bd)) as X. rewrite !Nat.add_0_r in X.
        rewrite <- slice_app. pose proof (rel_facts m st H) as (_ & _ & Ls' & _). rewrite put_app by (rewrite !slice_length by lia; lia). rewrite slice_length by lia. replace (8 * i + 8 * n) with (8 * (i + n)) by lia. exact X.
      * lia.
  - lia.
Qed.

Lemma overwrite_leads m st va vb v8 v9 v10 c z s d y off len hi : rel m st -> is_bytes d -> off + len <= 200 -> len <= List.length d ->
  leads 450 (mkM 69 (mkG va vb (Vi (N.of_nat len)) (Vi (N.of_nat off + 2 ^ 32 * hi)) (Vp Bda 0) (Vp Bst 0) (Vi v8) v9 v10) y c z s m d)
    (fun M => exists G' y' c' z' m', M = mkM 117 G' y' c' z' s m' d /\ rbx G' = vb /\ rel m' (put st off (firstn len d))).
Proof.
  intros H Bd Ho Hd. destruct (Nat.eq_dec len 0) as [->|N0].
  { eapply leads_weak.
    - ls; [reflexivity|]. ls; [reflexivity|]. ls; [reflexivity|]. ls; [reflexivity|]. apply (leads_0 0). eexists _, _, _, _, _. split; [reflexivity|]. split; [reflexivity|]. cbn [firstn]. rewrite put_nil. exact H.
    - lia. }
  pose proof (Nat.div_mod off 8 ltac:(discriminate)) as E. pose proof (Nat.mod_upper_bound off 8 ltac:(discriminate)) as U. assert (J : off / 8 < 25) by (apply Nat.div_lt_upper_bound; lia).
  set (j := off / 8) in *. set (k := off mod 8) in *. clearbody j k. subst off. pose proof (word_of_lt j) as W. pose proof (rel_facts m st H) as (Lm & Bm & Ls & Bs).
  assert (Z0 : (N.of_nat len =? 0)%N = false) by (apply N.eqb_neq; lia).
  destruct (Nat.eq_dec k 0) as [->|K0].
  - pose proof (Nat.div_mod len 8 ltac:(discriminate)) as El. pose proof (Nat.mod_upper_bound len 8 ltac:(discriminate)) as Ul. set (n := len / 8) in *. set (r := len mod 8) in *. clearbody n r. subst len.
    eapply leads_weak.
    + ls; [reflexivity|]. ls; [rewrite Z0; reflexivity|]. ls; [reflexivity|]. ls; [reflexivity|]. ls; [rewrite land_lane by assumption; reflexivity|]. ls; [reflexivity|].
      ls; [rewrite sx_nat by lia; reflexivity|]. ls; [rewrite land7 by exact U; reflexivity|]. ls; [reflexivity|].
      replace (1152 + Z.of_nat (8 * j))%Z with (1152 + 8 * Z.of_nat j)%Z by lia. rewrite Nat.add_0_r, <- slice0.
      apply (o_aligned_leads n r j 0); assumption || (cbn [Nat.add]; lia).
    + lia.
  - set (t := Nat.min (8 - k) len). assert (T : 1 <= t <= len /\ t <= 8 - k /\ (t = len \/ t = 8 - k)) by (unfold t; lia).
    pose proof (Nat.div_mod (len - t) 8 ltac:(discriminate)) as El. pose proof (Nat.mod_upper_bound (len - t) 8 ltac:(discriminate)) as Ul. set (n := (len - t) / 8) in *. set (r := (len - t) mod 8) in *. clearbody n r.
    eapply leads_weak.
    + ls; [reflexivity|]. ls; [rewrite Z0; reflexivity|]. ls; [reflexivity|]. ls; [reflexivity|]. ls; [rewrite land_lane by assumption; reflexivity|]. ls; [reflexivity|].
      ls; [rewrite sx_nat by lia; reflexivity|]. ls; [rewrite land7 by exact U; replace (N.of_nat k =? 0)%N with false by (symmetry; apply N.eqb_neq; lia); reflexivity|]. ls; [reflexivity|]. ls; [reflexivity|].
      ls; [change 8%N with (N.of_nat 8); rewrite sub64 by lia; reflexivity|].
      ls; [reflexivity|].
      ls; [instantiate (1 := mkM 82 (mkG (Vi (N.of_nat k)) vb (Vi (N.of_nat len)) (Vp Bro (1152 + Z.of_nat (8 * j))) (Vp Bda 0) (Vp Bst 0) (Vi v8) (Vi (N.of_nat t)) v10) y (Some (N.of_nat (8 - k) <? N.of_nat len)%N) (Some (N.of_nat (8 - k) =? N.of_nat len)%N) s m d)|].
      { unfold t. destruct (N.ltb_spec (N.of_nat (8 - k)) (N.of_nat len)) as [A|A]; cbn [negb set_pc]; [replace (Nat.min (8 - k) len) with (8 - k) by lia|replace (Nat.min (8 - k) len) with len by lia]; reflexivity. }
      ls; [rewrite sub64 by lia; reflexivity|].
      ls; [xcbn2; rewrite Z.add_0_r; rewrite (map_read j) by (exact J || lia); cbn [bind]; rewrite map_word; rewrite <- Nat2N.inj_add; rewrite N.mod_small by lia; reflexivity|].
      ls; [rewrite sx8; reflexivity|]. ls; [rewrite sx_nat by lia; rewrite Z.add_0_l; reflexivity|].
      destruct t as [|t']; [lia|]. eapply (leads_bind 56); [eapply leads_weak; [|instantiate (1 := 7 * S t'); lia]; apply (o_byte_loop1 t' 0 (k + 8 * word_of j)); assumption || lia|]. cbv beta. intros M (v1 & u' & c' & z' & ->).
      instantiate (1 := S (10 * n + 70)). ls; [reflexivity|].
      replace (1152 + Z.of_nat (8 * j) + 8)%Z with (1152 + 8 * Z.of_nat (j + 1))%Z by lia. cbn [Nat.add]. rewrite El.
      assert (H1 : rel (put m (k + 8 * word_of j) (slice d 0 (S t'))) (put st (8 * j + k) (slice d 0 (S t')))).
      { rewrite (Nat.add_comm k). apply rel_put; [exact H|exact J|rewrite slice_length by lia; lia|apply slice_bytes; exact Bd]. }
      destruct (Nat.eq_dec (len - S t') 0) as [Z1|Z1].
      * replace n with 0 by lia. replace r with 0 by lia. change (8 * 0 + 0) with 0.
        eapply leads_weak; [|instantiate (1 := 10); lia].
        ls; [reflexivity|]. ls; [reflexivity|]. ls; [reflexivity|]. ls; [reflexivity|]. ls; [reflexivity|]. ls; [reflexivity|]. ls; [reflexivity|].
        apply (leads_0 3). eexists _, _, _, _, _. split; [reflexivity|]. split; [reflexivity|]. replace len with (S t') by lia. rewrite <- slice0. exact H1.
      * eapply leads_conseq; [apply (o_aligned_leads n r (j + 1) (S t') v1 vb u' (Vi 0) v10 y c' z' s _ _ d Ul H1 Bd); lia|].
        cbv beta. intros M (G' & y' & c1 & z1 & m' & -> & GB & R). exists G', y', c1, z1, m'. split; [reflexivity|]. split; [exact GB|]. rewrite <- El in R.
        replace (8 * (j + 1)) with (8 * j + k + S t') in R by lia. rewrite <- slice0. replace len with (S t' + (len - S t')) by lia. rewrite <- slice_app. pose proof (rel_facts m st H) as (_ & _ & Ls' & _). rewrite put_app by (rewrite !slice_length by lia; lia). rewrite slice_length by lia. exact R.
    + lia.
Qed.
