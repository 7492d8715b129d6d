(** The fast absorbing loops of keccak/avx2 for every number of lanes, 24 and 12 rounds *)
From Coq Require Import Arith NArith ZArith String List Bool Lia.
From Verif Require Import Prelude SpongeModel SpongeFacts KeccakSpec KeccakModel KeccakFacts KeccakBytes SnpMem SnpLayout SnpSim Opt64Model Opt64Facts X86Model Avx2Code Avx2Round Avx2Perm Avx2Mem Avx2Facts Avx2Calls Avx2Add Avx2Block Avx2Fast StateSpec Opt64MoreFacts Avx2Rounds Avx2Fast12.
Import ListNotations.

Ltac lane_body i d p :=
  ls; [reflexivity|]; ls; [xcbn2; rewrite Z.add_0_r; rewrite mread_nat by lia; cbn [bind]; reflexivity|]; ls; [rewrite sx8; reflexivity|];
  ls; [xcbn2; rewrite Z.add_0_r; rewrite (map_read i) by lia; cbn [bind]; rewrite map_word; reflexivity|]; ls; [rewrite sx8; reflexivity|]; ls; [rewrite sx_nat by lia; reflexivity|];
  ls; [xcbn2; rewrite Z.add_0_r; rewrite Z.add_0_l; rewrite mread_nat by lia; cbn [bind]; rewrite write_xor64 by (assumption || lia); cbn [bind]; rewrite slice_word by (assumption || lia); reflexivity|].

(** the lanes of a block, from LanesAddLoop to the item after its loop *)
Lemma lanes_loop24 : forall n i p vb vc vs v8 v10 y c z s m st d, rel m st -> is_bytes d -> i + S n <= 25 -> p + 8 * S n <= List.length d ->
  leads (9 * S n) (mkM 565 (mkG (Vi (N.of_nat (S n))) vb vc (Vp Bda (Z.of_nat p)) vs (Vp Bst 0) v8 (Vp Bro (1152 + 8 * Z.of_nat i)) v10) y c z s m d)
    (fun M => exists v8' v9' v10' c' z' m', M = mkM 574 (mkG (Vi 0) vb vc (Vp Bda (Z.of_nat (p + 8 * S n))) vs (Vp Bst 0) v8' v9' v10') y c' z' s m' d /\ rel m' (xin st (8 * i) (slice d p (8 * S n)))).
Proof.
  induction n as [|n IH]; intros i p vb vc vs v8 v10 y c z s m st d H Bd Hi Hp; pose proof (rel_facts m st H) as (Lm & Bm & Ls & Bs); pose proof (word_of_lt i) as W;
    assert (H1 : rel (xin m (8 * word_of i) (slice d p 8)) (xin st (8 * i) (slice d p 8)))
      by (pose proof (rel_xin m st i 0 (slice d p 8) H ltac:(lia) ltac:(rewrite slice_length by lia; lia) (slice_bytes _ _ _ Bd)) as X; rewrite !Nat.add_0_r in X; exact X).
  - eapply leads_weak.
    + lane_body i d p. ls; [reflexivity|]. ls; [reflexivity|]. apply (leads_0 0). eexists _, _, _, _, _, _. split; [replace (Z.of_nat p + 8)%Z with (Z.of_nat (p + 8 * 1)) by lia; reflexivity|exact H1].
    + lia.
  - eapply leads_weak.
    + lane_body i d p. ls; [rewrite dec64 by lia; replace (N.of_nat (S (S n)) - 1)%N with (N.of_nat (S n)) by lia; reflexivity|].
      ls; [replace (N.of_nat (S (S n)) =? 1)%N with false by (symmetry; apply N.eqb_neq; lia); reflexivity|].
      replace (Z.of_nat p + 8)%Z with (Z.of_nat (p + 8)) by lia. replace (1152 + 8 * Z.of_nat i + 8)%Z with (1152 + 8 * Z.of_nat (i + 1))%Z by lia.
      eapply leads_conseq; [apply (IH (i + 1) (p + 8) vb vc vs _ _ y _ _ s _ _ d H1 Bd); lia|]. cbv beta. intros M (v8' & v9' & v10' & c' & z' & m' & -> & R).
      exists v8', v9', v10', c', z', m'. replace (p + 8 + 8 * S n) with (p + 8 * S (S n)) by lia. split; [reflexivity|].
      replace (8 * S (S n)) with (8 + 8 * S n) by lia. rewrite <- slice_app. rewrite xin_app. rewrite slice_length by lia. replace (8 * i + 8) with (8 * (i + 1)) by lia. exact R.
    + lia.
Qed.
(** all blocks, from Not17Lanes to Exit *)
Lemma any_loop24 k : 1 <= k <= 25 -> forall fuel st d p st' d' va vb v8 v9 v10 y c z s m, absorb_blocks permute_24rounds (8 * k) fuel st (skipn p d) = Ok (st', d') ->
  rel m st -> is_bytes d -> 8 * k <= List.length d - p -> p <= List.length d -> (N.of_nat (List.length d) < 2 ^ 63)%N -> List.length y = 16 ->
  leads (3000 * fuel) (mkM 562 (mkG va vb (Vi (N.of_nat ((List.length d - p) / 8))) (Vp Bda (Z.of_nat p)) (Vi (N.of_nat k)) (Vp Bst 0) v8 v9 v10) y c z s m d)
    (fun M => exists p' G' y' c' z' m', M = mkM 504 G' y' c' z' s m' d /\ (rdx G' = Vp Bda (Z.of_nat p') /\ rbx G' = vb) /\ rel m' st' /\ p' <= List.length d /\ d' = skipn p' d).
Proof.
  intros Hk. induction fuel as [|fuel IH]; intros st d p st' d' va vb v8 v9 v10 y c z s m E H Bd Hb Hp Hd Ly; [discriminate|]. cbn [absorb_blocks] in E. rewrite skipn_length in E.
  replace (8 * k <=? List.length d - p) with true in E by (symmetry; apply Nat.leb_le; exact Hb). apply bind_ok in E. destruct E as (st1 & E1 & E). apply add_bytes_inv in E1. destruct E1 as (_ & _ & ->). rewrite Nat2N.id in E. rewrite skip_more in E.
  change (firstn (8 * k) (skipn p d)) with (slice d p (8 * k)) in E.
  assert (Q8 : (N.of_nat ((List.length d - p) / 8) < 2 ^ 63)%N) by (eapply N.le_lt_trans; [|exact Hd]; pose proof (Nat.div_le_upper_bound (List.length d - p) 8 (List.length d - p) ltac:(discriminate) ltac:(lia)); lia).
  pose proof (proj1 (le_eighths (List.length d - p) k) Hb) as Q0. pose proof (eighths _ _ Hb) as Q.
  replace (3000 * S fuel) with (3 + (9 * k + (7 + (2700 + (290 - 9 * k + 3000 * fuel))))) by lia.
  ls; [reflexivity|]. ls; [reflexivity|]. ls; [reflexivity|].
  destruct k as [|k']; [lia|]. change 1152%Z with (1152 + 8 * Z.of_nat 0)%Z.
  eapply leads_bind; [apply (lanes_loop24 k' 0 p _ _ _ _ _ y _ _ s m st d H Bd); lia|]. cbv beta. intros M (v8' & v9' & v10' & c1 & z1 & m1 & -> & R1). change (8 * 0) with 0 in R1.
  ls; [rewrite sub64 by (lia || exact Q8); reflexivity|]. ls; [reflexivity|]. ls; [reflexivity|]. ls; [reflexivity|]. ls; [reflexivity|]. ls; [reflexivity|].
  eapply leads_weak; [|instantiate (1 := 2700 + (290 - 9 * S k' + 3000 * fuel)); lia].
  set (x := xin st 0 (slice d p (8 * S k'))) in *.
  eapply leads_bind; [apply (permute_leads m1 x); [exact R1|exact Ly]|]. cbv beta. intros M (G' & y' & c2 & z2 & m2 & -> & GB & LY & R2).
  destruct G' as [ra rb rc rd rs rt r8' r9' r10']. cbn [rbx] in GB. subst rb.
  assert (Q' : (List.length d - (p + 8 * S k')) / 8 = (List.length d - p) / 8 - S k') by (rewrite <- Q; f_equal; lia).
  eapply leads_weak; [|instantiate (1 := 8 + (3000 * fuel + 2)); lia].
  change (8 + (3000 * fuel + 2)) with (S (S (S (S (S (S (S (S (3000 * fuel + 2))))))))).
  ls; [reflexivity|]. ls; [reflexivity|]. ls; [reflexivity|]. ls; [reflexivity|]. ls; [reflexivity|]. ls; [reflexivity|].
  destruct (N.ltb_spec (N.of_nat ((List.length d - p) / 8 - S k')) (N.of_nat (S k'))) as [A|A].
  - ls; [replace (N.of_nat ((List.length d - p) / 8 - S k') <? N.of_nat (S k'))%N with true by (symmetry; apply N.ltb_lt; exact A); reflexivity|]. ls; [reflexivity|].
    destruct fuel as [|fuel]; [discriminate|]. cbn [absorb_blocks] in E. rewrite skipn_length in E.
    pose proof (le_eighths (List.length d - (p + 8 * S k')) (S k')) as Q2.
    replace (8 * S k' <=? List.length d - (p + 8 * S k')) with false in E by (symmetry; apply Nat.leb_gt; lia).
    assert (E1 : st' = permute_24rounds x /\ d' = skipn (p + 8 * S k') d) by (split; congruence). destruct E1 as [-> ->]. clear E.
    apply leads_0. eexists (p + 8 * S k'), _, _, _, _, _. split; [reflexivity|]. split; [split; reflexivity|]. split; [exact R2|]. split; [lia|reflexivity].
  - ls; [replace (N.of_nat ((List.length d - p) / 8 - S k') <? N.of_nat (S k'))%N with false by (symmetry; apply N.ltb_ge; exact A); reflexivity|].
    rewrite <- Q'. eapply leads_weak; [|instantiate (1 := 3000 * fuel); lia].
    eapply leads_conseq; [apply (IH (permute_24rounds x) d (p + 8 * S k') st' d'); [exact E|exact R2|exact Bd| |lia|exact Hd|exact LY]|].
    + apply le_eighths. rewrite Q'. lia.
    + cbv beta. intros M (p' & G' & y'' & c' & z' & m' & H1 & H2 & H3 & H4 & H5). exists p', G', y'', c', z', m'. exact (conj H1 (conj H2 (conj H3 (conj H4 H5)))).
Qed.
(** from the label to the ret *)
Lemma fast_any24 k fuel m st d st' d' va vb v8 v9 v10 c z s y : 1 <= k <= 25 -> rel m st -> is_bytes d -> absorb_blocks permute_24rounds (8 * k) fuel st d = Ok (st', d') -> List.length y = 16 -> (N.of_nat (List.length d) < 2 ^ 63)%N ->
  leads (3000 * fuel + 60) (mkM 440 (mkG va vb (Vi (N.of_nat (List.length d))) (Vp Bda 0) (Vi (N.of_nat k)) (Vp Bst 0) v8 v9 v10) y c z s m d)
    (fun M => exists p G' y' c' z' m', M = mkM 510 G' y' c' z' s m' d /\ rel m' st' /\ rax G' = Vi (N.of_nat p) /\ rbx G' = vb /\ skipn p d = d' /\ p <= List.length d).
Proof.
  intros Hk H Bd E Ly Hd.
  destruct (Nat.eq_dec k 17) as [E17|N17]; [eapply leads_weak; [apply (fast_leads k fuel m st d st' d'); (assumption || lia)|lia]|].
  destruct (Nat.eq_dec k 21) as [E21|N21]; [eapply leads_weak; [apply (fast_leads k fuel m st d st' d'); (assumption || lia)|lia]|].
  assert (S3 : N.shiftr (N.of_nat (List.length d)) 3 = N.of_nat (List.length d / 8)) by (rewrite N.shiftr_div_pow2; change (2 ^ 3)%N with (N.of_nat 8); rewrite Nat2N.inj_div; reflexivity).
  destruct (le_lt_dec (8 * k) (List.length d)) as [Ld|Ld].
  2:{ assert (X : st' = st /\ d' = d). { destruct fuel as [|fuel]; [discriminate|]. cbn [absorb_blocks] in E. replace (8 * k <=? List.length d) with false in E by (symmetry; apply Nat.leb_gt; exact Ld). split; congruence. } destruct X as [-> ->].
      assert (Q : (N.of_nat (List.length d / 8) <? N.of_nat k)%N = true). { apply N.ltb_lt. pose proof (le_eighths (List.length d) k). lia. }
      eapply leads_weak.
      - ls; [reflexivity|]. ls; [reflexivity|]. ls; [reflexivity|]. ls; [rewrite S3; reflexivity|]. ls; [reflexivity|]. ls; [rewrite Q; reflexivity|]. ls; [reflexivity|].
        ls; [reflexivity|]. ls; [reflexivity|]. ls; [reflexivity|]. ls; [reflexivity|]. ls; [reflexivity|]. ls; [reflexivity|]. apply (leads_0 0). eexists 0, _, _, _, _, _. split; [reflexivity|]. split; [exact H|]. split; [reflexivity|]. split; [reflexivity|]. split; [reflexivity|lia].
      - lia. }
  assert (Q0 : k <= List.length d / 8) by (apply le_eighths; exact Ld). assert (Q : (N.of_nat (List.length d / 8) <? N.of_nat k)%N = false) by (apply N.ltb_ge; lia).
  assert (Z17 : (N.of_nat k =? 17)%N = false) by (apply N.eqb_neq; lia). assert (Z21 : (N.of_nat k =? 21)%N = false) by (apply N.eqb_neq; lia).
  eapply leads_weak.
  - ls; [reflexivity|]. ls; [reflexivity|]. ls; [reflexivity|]. ls; [rewrite S3; reflexivity|]. ls; [reflexivity|]. ls; [rewrite Q; reflexivity|]. ls; [reflexivity|]. ls; [reflexivity|]. ls; [rewrite Z21; reflexivity|]. ls; [reflexivity|].
    ls; [reflexivity|]. ls; [rewrite Z17; reflexivity|]. ls; [reflexivity|].
    rewrite <- (Nat.sub_0_r (List.length d)) at 1. change 0%Z with (Z.of_nat 0) at 2.
    eapply leads_bind; [apply (any_loop24 k Hk fuel st d 0 st' d'); try assumption; try lia; rewrite upper_len; exact Ly|]. cbv beta. intros M (p' & G' & y' & c' & z' & m' & -> & [G1 G2] & R & Hp & ->).
    destruct G' as [ra rb rc rd rs rt r8' r9' r10']. cbn [rdx rbx] in G1, G2. subst rd rb.
    ls; [reflexivity|]. ls; [reflexivity|]. ls; [reflexivity|]. ls; [rewrite Z.sub_0_r; rewrite Z.mod_small by lia; reflexivity|]. replace (Z.to_N (Z.of_nat p')) with (N.of_nat p') by lia. ls; [reflexivity|]. ls; [reflexivity|].
    apply (leads_0 0). eexists p', _, _, _, _, _. split; [reflexivity|]. split; [exact R|]. split; [reflexivity|]. split; [reflexivity|]. split; [reflexivity|exact Hp].
  - lia.
Qed.

(** the lanes of a block, from LanesAddLoop to the item after its loop *)
Lemma lanes_loop12 : forall n i p vb vc vs v8 v10 y c z s m st d, rel m st -> is_bytes d -> i + S n <= 25 -> p + 8 * S n <= List.length d ->
  leads (9 * S n) (mkM 712 (mkG (Vi (N.of_nat (S n))) vb vc (Vp Bda (Z.of_nat p)) vs (Vp Bst 0) v8 (Vp Bro (1152 + 8 * Z.of_nat i)) v10) y c z s m d)
    (fun M => exists v8' v9' v10' c' z' m', M = mkM 721 (mkG (Vi 0) vb vc (Vp Bda (Z.of_nat (p + 8 * S n))) vs (Vp Bst 0) v8' v9' v10') y c' z' s m' d /\ rel m' (xin st (8 * i) (slice d p (8 * S n)))).
Proof.
  induction n as [|n IH]; intros i p vb vc vs v8 v10 y c z s m st d H Bd Hi Hp; pose proof (rel_facts m st H) as (Lm & Bm & Ls & Bs); pose proof (word_of_lt i) as W;
    assert (H1 : rel (xin m (8 * word_of i) (slice d p 8)) (xin st (8 * i) (slice d p 8)))
      by (pose proof (rel_xin m st i 0 (slice d p 8) H ltac:(lia) ltac:(rewrite slice_length by lia; lia) (slice_bytes _ _ _ Bd)) as X; rewrite !Nat.add_0_r in X; exact X).
  - eapply leads_weak.
    + lane_body i d p. ls; [reflexivity|]. ls; [reflexivity|]. apply (leads_0 0). eexists _, _, _, _, _, _. split; [replace (Z.of_nat p + 8)%Z with (Z.of_nat (p + 8 * 1)) by lia; reflexivity|exact H1].
    + lia.
  - eapply leads_weak.
    + lane_body i d p. ls; [rewrite dec64 by lia; replace (N.of_nat (S (S n)) - 1)%N with (N.of_nat (S n)) by lia; reflexivity|].
      ls; [replace (N.of_nat (S (S n)) =? 1)%N with false by (symmetry; apply N.eqb_neq; lia); reflexivity|].
      replace (Z.of_nat p + 8)%Z with (Z.of_nat (p + 8)) by lia. replace (1152 + 8 * Z.of_nat i + 8)%Z with (1152 + 8 * Z.of_nat (i + 1))%Z by lia.
      eapply leads_conseq; [apply (IH (i + 1) (p + 8) vb vc vs _ _ y _ _ s _ _ d H1 Bd); lia|]. cbv beta. intros M (v8' & v9' & v10' & c' & z' & m' & -> & R).
      exists v8', v9', v10', c', z', m'. replace (p + 8 + 8 * S n) with (p + 8 * S (S n)) by lia. split; [reflexivity|].
      replace (8 * S (S n)) with (8 + 8 * S n) by lia. rewrite <- slice_app. rewrite xin_app. rewrite slice_length by lia. replace (8 * i + 8) with (8 * (i + 1)) by lia. exact R.
    + lia.
Qed.
(** all blocks, from Not17Lanes to Exit *)
Lemma any_loop12 k : 1 <= k <= 25 -> forall fuel st d p st' d' va vb v8 v9 v10 y c z s m, absorb_blocks (permute_n 12) (8 * k) fuel st (skipn p d) = Ok (st', d') ->
  rel m st -> is_bytes d -> 8 * k <= List.length d - p -> p <= List.length d -> (N.of_nat (List.length d) < 2 ^ 63)%N -> List.length y = 16 ->
  leads (3000 * fuel) (mkM 709 (mkG va vb (Vi (N.of_nat ((List.length d - p) / 8))) (Vp Bda (Z.of_nat p)) (Vi (N.of_nat k)) (Vp Bst 0) v8 v9 v10) y c z s m d)
    (fun M => exists p' G' y' c' z' m', M = mkM 651 G' y' c' z' s m' d /\ (rdx G' = Vp Bda (Z.of_nat p') /\ rbx G' = vb) /\ rel m' st' /\ p' <= List.length d /\ d' = skipn p' d).
Proof.
  intros Hk. induction fuel as [|fuel IH]; intros st d p st' d' va vb v8 v9 v10 y c z s m E H Bd Hb Hp Hd Ly; [discriminate|]. cbn [absorb_blocks] in E. rewrite skipn_length in E.
  replace (8 * k <=? List.length d - p) with true in E by (symmetry; apply Nat.leb_le; exact Hb). apply bind_ok in E. destruct E as (st1 & E1 & E). apply add_bytes_inv in E1. destruct E1 as (_ & _ & ->). rewrite Nat2N.id in E. rewrite skip_more in E.
  change (firstn (8 * k) (skipn p d)) with (slice d p (8 * k)) in E.
  assert (Q8 : (N.of_nat ((List.length d - p) / 8) < 2 ^ 63)%N) by (eapply N.le_lt_trans; [|exact Hd]; pose proof (Nat.div_le_upper_bound (List.length d - p) 8 (List.length d - p) ltac:(discriminate) ltac:(lia)); lia).
  pose proof (proj1 (le_eighths (List.length d - p) k) Hb) as Q0. pose proof (eighths _ _ Hb) as Q.
  replace (3000 * S fuel) with (3 + (9 * k + (7 + (2700 + (290 - 9 * k + 3000 * fuel))))) by lia.
  ls; [reflexivity|]. ls; [reflexivity|]. ls; [reflexivity|].
  destruct k as [|k']; [lia|]. change 1152%Z with (1152 + 8 * Z.of_nat 0)%Z.
  eapply leads_bind; [apply (lanes_loop12 k' 0 p _ _ _ _ _ y _ _ s m st d H Bd); lia|]. cbv beta. intros M (v8' & v9' & v10' & c1 & z1 & m1 & -> & R1). change (8 * 0) with 0 in R1.
  ls; [rewrite sub64 by (lia || exact Q8); reflexivity|]. ls; [reflexivity|]. ls; [reflexivity|]. ls; [reflexivity|]. ls; [reflexivity|]. ls; [reflexivity|].
  eapply leads_weak; [|instantiate (1 := 2700 + (290 - 9 * S k' + 3000 * fuel)); lia].
  set (x := xin st 0 (slice d p (8 * S k'))) in *.
  eapply leads_bind; [apply (permute12_leads m1 x); [exact R1|exact Ly]|]. cbv beta. intros M (G' & y' & c2 & z2 & m2 & -> & GB & LY & R2).
  destruct G' as [ra rb rc rd rs rt r8' r9' r10']. cbn [rbx] in GB. subst rb.
  assert (Q' : (List.length d - (p + 8 * S k')) / 8 = (List.length d - p) / 8 - S k') by (rewrite <- Q; f_equal; lia).
  eapply leads_weak; [|instantiate (1 := 8 + (3000 * fuel + 2)); lia].
  change (8 + (3000 * fuel + 2)) with (S (S (S (S (S (S (S (S (3000 * fuel + 2))))))))).
  ls; [reflexivity|]. ls; [reflexivity|]. ls; [reflexivity|]. ls; [reflexivity|]. ls; [reflexivity|]. ls; [reflexivity|].
  destruct (N.ltb_spec (N.of_nat ((List.length d - p) / 8 - S k')) (N.of_nat (S k'))) as [A|A].
  - ls; [replace (N.of_nat ((List.length d - p) / 8 - S k') <? N.of_nat (S k'))%N with true by (symmetry; apply N.ltb_lt; exact A); reflexivity|]. ls; [reflexivity|].
    destruct fuel as [|fuel]; [discriminate|]. cbn [absorb_blocks] in E. rewrite skipn_length in E.
    pose proof (le_eighths (List.length d - (p + 8 * S k')) (S k')) as Q2.
    replace (8 * S k' <=? List.length d - (p + 8 * S k')) with false in E by (symmetry; apply Nat.leb_gt; lia).
    assert (E1 : st' = (permute_n 12) x /\ d' = skipn (p + 8 * S k') d) by (split; congruence). destruct E1 as [-> ->]. clear E.
    apply leads_0. eexists (p + 8 * S k'), _, _, _, _, _. split; [reflexivity|]. split; [split; reflexivity|]. split; [exact R2|]. split; [lia|reflexivity].
  - ls; [replace (N.of_nat ((List.length d - p) / 8 - S k') <? N.of_nat (S k'))%N with false by (symmetry; apply N.ltb_ge; exact A); reflexivity|].
    rewrite <- Q'. eapply leads_weak; [|instantiate (1 := 3000 * fuel); lia].
    eapply leads_conseq; [apply (IH ((permute_n 12) x) d (p + 8 * S k') st' d'); [exact E|exact R2|exact Bd| |lia|exact Hd|exact LY]|].
    + apply le_eighths. rewrite Q'. lia.
    + cbv beta. intros M (p' & G' & y'' & c' & z' & m' & H1 & H2 & H3 & H4 & H5). exists p', G', y'', c', z', m'. exact (conj H1 (conj H2 (conj H3 (conj H4 H5)))).
Qed.
(** from the label to the ret *)
Lemma fast_any12 k fuel m st d st' d' va vb v8 v9 v10 c z s y : 1 <= k <= 25 -> rel m st -> is_bytes d -> absorb_blocks (permute_n 12) (8 * k) fuel st d = Ok (st', d') -> List.length y = 16 -> (N.of_nat (List.length d) < 2 ^ 63)%N ->
  leads (3000 * fuel + 60) (mkM 587 (mkG va vb (Vi (N.of_nat (List.length d))) (Vp Bda 0) (Vi (N.of_nat k)) (Vp Bst 0) v8 v9 v10) y c z s m d)
    (fun M => exists p G' y' c' z' m', M = mkM 657 G' y' c' z' s m' d /\ rel m' st' /\ rax G' = Vi (N.of_nat p) /\ rbx G' = vb /\ skipn p d = d' /\ p <= List.length d).
Proof.
  intros Hk H Bd E Ly Hd.
  destruct (Nat.eq_dec k 17) as [E17|N17]; [eapply leads_weak; [apply (fast12_leads k fuel m st d st' d'); (assumption || lia)|lia]|].
  destruct (Nat.eq_dec k 21) as [E21|N21]; [eapply leads_weak; [apply (fast12_leads k fuel m st d st' d'); (assumption || lia)|lia]|].
  assert (S3 : N.shiftr (N.of_nat (List.length d)) 3 = N.of_nat (List.length d / 8)) by (rewrite N.shiftr_div_pow2; change (2 ^ 3)%N with (N.of_nat 8); rewrite Nat2N.inj_div; reflexivity).
  destruct (le_lt_dec (8 * k) (List.length d)) as [Ld|Ld].
  2:{ assert (X : st' = st /\ d' = d). { destruct fuel as [|fuel]; [discriminate|]. cbn [absorb_blocks] in E. replace (8 * k <=? List.length d) with false in E by (symmetry; apply Nat.leb_gt; exact Ld). split; congruence. } destruct X as [-> ->].
      assert (Q : (N.of_nat (List.length d / 8) <? N.of_nat k)%N = true). { apply N.ltb_lt. pose proof (le_eighths (List.length d) k). lia. }
      eapply leads_weak.
      - ls; [reflexivity|]. ls; [reflexivity|]. ls; [reflexivity|]. ls; [rewrite S3; reflexivity|]. ls; [reflexivity|]. ls; [rewrite Q; reflexivity|]. ls; [reflexivity|].
        ls; [reflexivity|]. ls; [reflexivity|]. ls; [reflexivity|]. ls; [reflexivity|]. ls; [reflexivity|]. ls; [reflexivity|]. apply (leads_0 0). eexists 0, _, _, _, _, _. split; [reflexivity|]. split; [exact H|]. split; [reflexivity|]. split; [reflexivity|]. split; [reflexivity|lia].
      - lia. }
  assert (Q0 : k <= List.length d / 8) by (apply le_eighths; exact Ld). assert (Q : (N.of_nat (List.length d / 8) <? N.of_nat k)%N = false) by (apply N.ltb_ge; lia).
  assert (Z17 : (N.of_nat k =? 17)%N = false) by (apply N.eqb_neq; lia). assert (Z21 : (N.of_nat k =? 21)%N = false) by (apply N.eqb_neq; lia).
  eapply leads_weak.
  - ls; [reflexivity|]. ls; [reflexivity|]. ls; [reflexivity|]. ls; [rewrite S3; reflexivity|]. ls; [reflexivity|]. ls; [rewrite Q; reflexivity|]. ls; [reflexivity|]. ls; [reflexivity|]. ls; [rewrite Z21; reflexivity|]. ls; [reflexivity|].
    ls; [reflexivity|]. ls; [rewrite Z17; reflexivity|]. ls; [reflexivity|].
    rewrite <- (Nat.sub_0_r (List.length d)) at 1. change 0%Z with (Z.of_nat 0) at 2.
    eapply leads_bind; [apply (any_loop12 k Hk fuel st d 0 st' d'); try assumption; try lia; rewrite upper_len; exact Ly|]. cbv beta. intros M (p' & G' & y' & c' & z' & m' & -> & [G1 G2] & R & Hp & ->).
    destruct G' as [ra rb rc rd rs rt r8' r9' r10']. cbn [rdx rbx] in G1, G2. subst rd rb.
    ls; [reflexivity|]. ls; [reflexivity|]. ls; [reflexivity|]. ls; [rewrite Z.sub_0_r; rewrite Z.mod_small by lia; reflexivity|]. replace (Z.to_N (Z.of_nat p')) with (N.of_nat p') by lia. ls; [reflexivity|]. ls; [reflexivity|].
    apply (leads_0 0). eexists p', _, _, _, _, _. split; [reflexivity|]. split; [exact R|]. split; [reflexivity|]. split; [reflexivity|]. split; [reflexivity|exact Hp].
  - lia.
Qed.
