(** KeccakP1600_OverwriteWithZeroes of keccak/avx2 *)
From Coq Require Import Arith NArith ZArith String List Bool Lia.
From Verif Require Import Prelude SpongeModel SpongeFacts KeccakModel KeccakFacts KeccakBytes SnpMem SnpLayout SnpSim Opt64Model Opt64Facts X86Model Avx2Code Avx2Round Avx2Perm Avx2Mem Avx2Facts Avx2Calls Avx2Add Avx2Extract StateSpec PutFacts Avx2Over.
Import ListNotations.

Lemma zeros_bytes n : is_bytes (repeat 0%N n).
Proof. apply Forall_forall. intros x H. rewrite (repeat_spec n 0%N x H). exact eq_refl. Qed.
Lemma zero_loop : forall n q vb vc vd vt v8 v9 v10 y c z s m d, List.length m = 200 -> q + S n <= 200 ->
  leads (5 * S n) (mkM 136 (mkG (Vp Bst (Z.of_nat q)) vb vc vd (Vi (N.of_nat (S n))) vt v8 v9 v10) y c z s m d)
    (fun M => exists v1 c' z', M = mkM 141 (mkG v1 vb vc vd (Vi 0) vt v8 v9 v10) y c' z' s (put m q (repeat 0%N (S n))) d).
Proof.
  induction n as [|n IH]; intros q vb vc vd vt v8 v9 v10 y c z s m d Lm Hq.
  - eapply leads_weak.
    + ls; [reflexivity|]. ls; [xcbn2; rewrite Z.add_0_r; rewrite mwrite_put by (rewrite le_bytes_length; lia); cbn [bind]; reflexivity|].
      ls; [rewrite sx1; reflexivity|]. ls; [change (N.of_nat 1) with 1%N; rewrite dec64 by lia; reflexivity|]. ls; [reflexivity|].
      apply (leads_0 0). eexists _, _, _. reflexivity.
    + lia.
  - eapply leads_weak.
    + ls; [reflexivity|]. ls; [xcbn2; rewrite Z.add_0_r; rewrite mwrite_put by (rewrite le_bytes_length; lia); cbn [bind]; reflexivity|].
      ls; [rewrite sx1; reflexivity|]. ls; [rewrite dec64 by lia; replace (N.of_nat (S (S n)) - 1)%N with (N.of_nat (S n)) by lia; replace (N.of_nat (S n) =? 0)%N with false by (symmetry; apply N.eqb_neq; lia); reflexivity|]. ls; [reflexivity|].
      replace (Z.of_nat q + 1)%Z with (Z.of_nat (q + 1)) by lia.
      eapply leads_conseq; [apply IH; [rewrite put_length by (rewrite le_bytes_length; lia); exact Lm|lia]|]. cbv beta. intros M (v1 & c' & z' & ->). exists v1, c', z'.
      change (repeat 0%N (S (S n))) with (0%N :: repeat 0%N (S n)). rewrite (put_cons m q _ (repeat 0%N (S n))) by (rewrite repeat_length; lia). reflexivity.
    + lia.
Qed.
Lemma zero_lanes r (Hr : r < 8) : forall n i va vb vc v8 v9 v10 y c z s m st d, rel m st -> i + n <= 25 ->
  leads (8 * n + 3) (mkM 128 (mkG va vb vc (Vp Bro (1152 + 8 * Z.of_nat i)) (Vi (N.of_nat (8 * n + r))) (Vp Bst 0) v8 v9 v10) y c z s m d)
    (fun M => exists v1 c' z' m', M = mkM 131 (mkG v1 vb vc (Vp Bro (1152 + 8 * Z.of_nat (i + n))) (Vi (N.of_nat r + (2 ^ 64 - 8))) (Vp Bst 0) v8 v9 v10) y c' z' s m' d /\
      rel m' (put st (8 * i) (repeat 0%N (8 * n)))).
Proof.
  induction n as [|n IH]; intros i va vb vc v8 v9 v10 y c z s m st d H Hi.
  - eapply leads_weak.
    + ls; [reflexivity|]. ls; [change (8 * 0) with 0; cbn [Nat.add]; rewrite sub8_borrow by lia; replace (N.of_nat r <? 8)%N with true by (symmetry; apply N.ltb_lt; lia); reflexivity|]. ls; [reflexivity|].
      apply (leads_0 0). eexists _, _, _, _. rewrite !Nat.add_0_r. split; [reflexivity|]. cbn [Nat.mul repeat]. rewrite put_nil. exact H.
    + lia.
  - pose proof (rel_facts m st H) as (Lm & Bm & Ls & Bs). pose proof (word_of_lt i) as W. eapply leads_weak.
    + ls; [reflexivity|]. ls; [rewrite sub8 by lia; replace (N.of_nat (8 * S n + r) - 8)%N with (N.of_nat (8 * n + r)) by lia; replace (N.of_nat (8 * S n + r) <? 8)%N with false by (symmetry; apply N.ltb_ge; lia); reflexivity|]. ls; [reflexivity|].
      ls; [reflexivity|].
      ls; [xcbn2; rewrite Z.add_0_r; rewrite (map_read i) by lia; cbn [bind]; rewrite map_word; reflexivity|]. ls; [rewrite sx8; reflexivity|]. ls; [rewrite sx_nat by lia; reflexivity|].
      ls; [xcbn2; rewrite Z.add_0_r; rewrite Z.add_0_l; rewrite mwrite_put by (rewrite le_bytes_length; lia); cbn [bind]; reflexivity|].
      replace (1152 + 8 * Z.of_nat i + 8)%Z with (1152 + 8 * Z.of_nat (i + 1))%Z by lia.
      assert (H1 : rel (put m (8 * word_of i) (repeat 0%N 8)) (put st (8 * i) (repeat 0%N 8))).
      { pose proof (rel_put m st i 0 (repeat 0%N 8) H ltac:(lia) ltac:(rewrite repeat_length; lia) (zeros_bytes 8)) as X. rewrite !Nat.add_0_r in X. exact X. }
      eapply leads_conseq; [apply (IH (i + 1) _ vb vc _ v9 v10 y _ _ s _ _ d H1); lia|]. cbv beta. intros M (v1 & c' & z' & m' & -> & R).
      exists v1, c', z', m'. replace (i + 1 + n) with (i + S n) by lia. split; [reflexivity|].
      replace (8 * S n) with (8 + 8 * n) by lia. rewrite repeat_app. rewrite put_app by (rewrite !repeat_length; lia). rewrite repeat_length. replace (8 * i + 8) with (8 * (i + 1)) by lia. exact R.
    + lia.
Qed.
Lemma zeroes_leads m st va vb vc vd v8 v9 v10 c z s d y n : rel m st -> n <= 200 ->
  leads 300 (mkM 118 (mkG va vb vc vd (Vi (N.of_nat n)) (Vp Bst 0) v8 v9 v10) y c z s m d)
    (fun M => exists G' y' c' z' m', M = mkM 142 G' y' c' z' s m' d /\ rbx G' = vb /\ rel m' (put st 0 (repeat 0%N n))).
Proof.
  intros H Hn. destruct (Nat.eq_dec n 0) as [->|N0].
  { eapply leads_weak.
    - ls; [reflexivity|]. ls; [reflexivity|]. ls; [reflexivity|]. ls; [reflexivity|]. apply (leads_0 0). eexists _, _, _, _, _. split; [reflexivity|]. split; [reflexivity|]. cbn [repeat]. rewrite put_nil. exact H.
    - lia. }
  assert (Z0 : (N.of_nat n =? 0)%N = false) by (apply N.eqb_neq; lia).
  pose proof (Nat.div_mod n 8 ltac:(discriminate)) as El. pose proof (Nat.mod_upper_bound n 8 ltac:(discriminate)) as Ul. set (k := n / 8) in *. set (r := n mod 8) in *. clearbody k r. rewrite El in *. clear El n.
  pose proof (rel_facts m st H) as (_ & _ & Ls & _).
  eapply leads_weak.
  - ls; [reflexivity|]. ls; [reflexivity|]. ls; [rewrite Z0; reflexivity|]. ls; [reflexivity|]. ls; [reflexivity|].
    change (1152)%Z with (1152 + 8 * Z.of_nat 0)%Z.
    eapply leads_bind; [apply (zero_lanes r Ul k 0 _ vb vc v8 v9 v10 y _ _ s m st d H); lia|]. cbv beta. intros M (v1 & c' & z' & m' & -> & R). change (8 * 0) with 0 in R. change (0 + k) with k.
    pose proof (rel_facts _ _ R) as (Lm & Bm & _).
    instantiate (1 := 45). destruct r as [|r].
    + eapply leads_weak.
      * ls; [reflexivity|]. ls; [rewrite add8_back by lia; reflexivity|]. ls; [reflexivity|]. ls; [reflexivity|]. apply (leads_0 0). eexists _, _, _, _, _. split; [reflexivity|]. split; [reflexivity|]. rewrite Nat.add_0_r. exact R.
      * lia.
    + eapply leads_weak.
      * ls; [reflexivity|]. ls; [rewrite add8_back by lia; reflexivity|]. pose proof (word_of_lt k) as W.
        ls; [replace (N.of_nat (S r) =? 0)%N with false by (symmetry; apply N.eqb_neq; lia); reflexivity|].
        ls; [xcbn2; rewrite Z.add_0_r; rewrite (map_read k) by lia; cbn [bind]; rewrite map_word; reflexivity|]. ls; [rewrite sx_nat by lia; rewrite Z.add_0_l; reflexivity|].
        eapply leads_bind; [apply zero_loop; [exact Lm|lia]|]. cbv beta. intros M (v1' & c1 & z1 & ->). ls; [reflexivity|].
        apply (leads_0 0). eexists _, _, _, _, _. split; [reflexivity|]. split; [reflexivity|].
        pose proof (rel_put m' _ k 0 (repeat 0%N (S r)) R ltac:(lia) ltac:(rewrite repeat_length; lia) (zeros_bytes _)) as X. rewrite !Nat.add_0_r in X.
        rewrite repeat_app. rewrite put_app by (rewrite !repeat_length; lia). rewrite repeat_length. cbn [Nat.add]. exact X.
      * lia.
  - lia.
Qed.
