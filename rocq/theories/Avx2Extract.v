(** KeccakP1600_ExtractBytes of keccak/avx2 *)
From Coq Require Import Arith NArith ZArith String List Bool Lia.
From Verif Require Import Prelude SpongeModel SpongeFacts KeccakModel KeccakFacts KeccakBytes SnpMem SnpLayout SnpSim Opt64Model Opt64Facts X86Model Avx2Code Avx2Round Avx2Perm Avx2Mem Avx2Facts Avx2Calls Avx2Add.
Import ListNotations.

(** the output buffer when the bytes P have been written over its beginning *)
Definition over (P buf : bytes) : bytes := P ++ skipn (List.length P) buf.
Lemma over_write (P buf d : bytes) z : z = Z.of_nat (List.length P) -> List.length P + List.length d <= List.length buf -> mwrite (over P buf) z d = Ok (over (P ++ d) buf).
Proof. intros -> H. unfold over. rewrite (write_next P buf d (List.length P)) by (reflexivity || exact H). rewrite app_length. reflexivity. Qed.
Lemma over_all (P buf : bytes) : List.length buf = List.length P -> over P buf = P.
Proof. intros H. unfold over. rewrite skipn_all2 by lia. apply app_nil_r. Qed.
Lemma rel_slice_part m st j k n : rel m st -> j < 25 -> k + n <= 8 -> slice m (8 * word_of j + k) n = slice st (8 * j + k) n.
Proof. intros H Hj Hk. pose proof (rel_slice m st j H Hj) as E. rewrite <- (slice_slice m (8 * word_of j) 8 k n) by exact Hk. rewrite E. apply slice_slice. exact Hk. Qed.
Lemma le_bytes_first n : forall l, is_bytes l -> n <= List.length l -> le_bytes n (le_word l) = firstn n l.
Proof.
  induction n as [|n IH]; intros l H L; [reflexivity|]. destruct l as [|x l]; [cbn in L; lia|]. cbn [le_bytes le_word firstn]. apply Forall_cons_iff in H. destruct H as [Hx H].
  rewrite (N.mul_comm 256). rewrite N.mod_add by discriminate. rewrite N.div_add by discriminate. rewrite (N.mod_small x), (N.div_small x) by exact Hx. rewrite N.add_0_l. rewrite IH; [reflexivity|exact H|cbn in L; lia].
Qed.
Lemma le_bytes1 b : is_byte b -> le_bytes 1 b = [b].
Proof. intros H. cbn [le_bytes]. rewrite N.mod_small by exact H. reflexivity. Qed.
Lemma le_bytes1_low w : le_bytes 1 (w mod 2 ^ 8) = [(w mod 256)%N].
Proof. change (2 ^ 8)%N with 256%N. apply le_bytes1. apply N.mod_lt. discriminate. Qed.

Lemma ext_loop1 : forall n P q u va vc vd vt v10 y c z s m buf, is_bytes m -> List.length m = 200 -> q + S n <= 200 -> List.length P + S n <= List.length buf ->
  leads (7 * S n) (mkM 162 (mkG va (Vi (N.of_nat (S n))) vc vd (Vp Bda (Z.of_nat (List.length P))) vt (Vi u) (Vp Bst (Z.of_nat q)) v10) y c z s m (over P buf))
    (fun M => exists v9 u' c' z', M = mkM 169 (mkG va (Vi 0) vc vd (Vp Bda (Z.of_nat (List.length (P ++ slice m q (S n))))) vt (Vi u') v9 v10) y c' z' s m (over (P ++ slice m q (S n)) buf)).
Proof.
  induction n as [|n IH]; intros P q u va vc vd vt v10 y c z s m buf Bm Lm Hq Hp; pose proof (nth_byte m q Bm) as Hb.
  - eapply leads_weak.
    + ls; [reflexivity|]. ls; [xcbn2; rewrite Z.add_0_r; rewrite mread_nat by lia; cbn [bind]; rewrite slice1 by lia; rewrite le_word1; reflexivity|].
      ls; [rewrite sx1; reflexivity|]. ls; [xcbn2; rewrite merge_low by exact Hb; rewrite le_bytes1 by exact Hb; rewrite Z.add_0_r; rewrite over_write by (reflexivity || (cbn [List.length]; lia)); cbn [bind]; reflexivity|].
      ls; [rewrite sx1; reflexivity|]. ls; [change (N.of_nat 1) with 1%N; rewrite dec64 by lia; reflexivity|]. ls; [reflexivity|].
      apply (leads_0 0). eexists _, _, _, _. rewrite slice1 by lia. rewrite app_length. cbn [List.length]. replace (Z.of_nat (List.length P) + 1)%Z with (Z.of_nat (List.length P + 1)) by lia. reflexivity.
    + lia.
  - eapply leads_weak.
    + ls; [reflexivity|]. ls; [xcbn2; rewrite Z.add_0_r; rewrite mread_nat by lia; cbn [bind]; rewrite slice1 by lia; rewrite le_word1; reflexivity|].
      ls; [rewrite sx1; reflexivity|]. ls; [xcbn2; rewrite merge_low by exact Hb; rewrite le_bytes1 by exact Hb; rewrite Z.add_0_r; rewrite over_write by (reflexivity || (cbn [List.length]; lia)); cbn [bind]; reflexivity|].
      ls; [rewrite sx1; reflexivity|]. ls; [rewrite dec64 by lia; replace (N.of_nat (S (S n)) - 1)%N with (N.of_nat (S n)) by lia; replace (N.of_nat (S n) =? 0)%N with false by (symmetry; apply N.eqb_neq; lia); reflexivity|]. ls; [reflexivity|].
      replace (Z.of_nat (List.length P) + 1)%Z with (Z.of_nat (List.length (P ++ [nth q m 0%N]))) by (rewrite app_length; cbn [List.length]; lia). replace (Z.of_nat q + 1)%Z with (Z.of_nat (q + 1)) by lia.
      eapply leads_conseq; [apply IH; [exact Bm|exact Lm|lia|rewrite app_length; cbn [List.length]; lia]|]. cbv beta. intros M (v9 & u' & c' & z' & ->). exists v9, u', c', z'. rewrite (slice_S m q (S n)) by lia. rewrite <- !app_assoc. reflexivity.
    + lia.
Qed.
Lemma ext_loop2 : forall n P w va vb vd vt v9 v10 y c z s m buf, List.length P + S n <= List.length buf -> n < 200 ->
  leads (6 * S n) (mkM 186 (mkG va vb (Vi (N.of_nat (S n))) vd (Vp Bda (Z.of_nat (List.length P))) vt (Vi w) v9 v10) y c z s m (over P buf))
    (fun M => exists u' c' z', M = mkM 192 (mkG va vb (Vi 0) vd (Vp Bda (Z.of_nat (List.length (P ++ le_bytes (S n) w)))) vt (Vi u') v9 v10) y c' z' s m (over (P ++ le_bytes (S n) w) buf)).
Proof.
  induction n as [|n IH]; intros P w va vb vd vt v9 v10 y c z s m buf Hp Hn.
  - eapply leads_weak.
    + ls; [reflexivity|]. ls; [xcbn2; rewrite le_bytes1_low; rewrite Z.add_0_r; rewrite over_write by (reflexivity || (cbn [List.length]; lia)); cbn [bind]; reflexivity|].
      ls; [reflexivity|]. ls; [rewrite sx1; reflexivity|]. ls; [change (N.of_nat 1) with 1%N; rewrite dec64 by lia; reflexivity|]. ls; [reflexivity|].
      apply (leads_0 0). eexists _, _, _. cbn [le_bytes]. rewrite app_length. cbn [List.length]. replace (Z.of_nat (List.length P) + 1)%Z with (Z.of_nat (List.length P + 1)) by lia. reflexivity.
    + lia.
  - eapply leads_weak.
    + ls; [reflexivity|]. ls; [xcbn2; rewrite le_bytes1_low; rewrite Z.add_0_r; rewrite over_write by (reflexivity || (cbn [List.length]; lia)); cbn [bind]; reflexivity|].
      ls; [reflexivity|]. ls; [rewrite sx1; reflexivity|]. ls; [rewrite dec64 by lia; replace (N.of_nat (S (S n)) - 1)%N with (N.of_nat (S n)) by lia; replace (N.of_nat (S n) =? 0)%N with false by (symmetry; apply N.eqb_neq; lia); reflexivity|]. ls; [reflexivity|].
      replace (Z.of_nat (List.length P) + 1)%Z with (Z.of_nat (List.length (P ++ [(w mod 256)%N]))) by (rewrite app_length; cbn [List.length]; lia).
      eapply leads_conseq; [apply IH; [rewrite app_length; cbn [List.length]; lia|lia]|]. cbv beta. intros M (u' & c' & z' & ->). exists u', c', z'. rewrite <- !app_assoc. replace (N.shiftr w 8) with (w / 256)%N by (rewrite N.shiftr_div_pow2; reflexivity). reflexivity.
    + lia.
Qed.

(** whole lanes, from LaneAlignedCheck to LastIncompleteLane *)
Lemma ext_lanes r (Hr : r < 8) : forall n i P va vb v8 v9 v10 y c z s m st buf, rel m st -> i + n <= 25 -> List.length P + 8 * n <= List.length buf ->
  leads (10 * n + 3) (mkM 177 (mkG va vb (Vi (N.of_nat (8 * n + r))) (Vp Bro (1152 + 8 * Z.of_nat i)) (Vp Bda (Z.of_nat (List.length P))) (Vp Bst 0) (Vi v8) v9 v10) y c z s m (over P buf))
    (fun M => exists v1 v8' c' z' P', M = mkM 180 (mkG v1 vb (Vi (N.of_nat r + (2 ^ 64 - 8))) (Vp Bro (1152 + 8 * Z.of_nat (i + n))) (Vp Bda (Z.of_nat (List.length P'))) (Vp Bst 0) (Vi v8') v9 v10) y c' z' s m (over P' buf) /\
      P' = P ++ slice st (8 * i) (8 * n)).
Proof.
  induction n as [|n IH]; intros i P va vb v8 v9 v10 y c z s m st buf H Hi Hp.
  - eapply leads_weak.
    + ls; [reflexivity|]. ls; [change (8 * 0) with 0; cbn [Nat.add]; rewrite sub8_borrow by lia; replace (N.of_nat r <? 8)%N with true by (symmetry; apply N.ltb_lt; lia); reflexivity|]. ls; [reflexivity|].
      apply (leads_0 0). eexists _, _, _, _, _. rewrite !Nat.add_0_r. split; [reflexivity|]. unfold slice. cbn [Nat.mul firstn]. rewrite app_nil_r. reflexivity.
    + lia.
  - pose proof (rel_facts m st H) as (Lm & Bm & Ls & Bs). pose proof (word_of_lt i) as W. pose proof (slice_length m (8 * word_of i) 8 ltac:(lia)) as L8. eapply leads_weak.
    + ls; [reflexivity|]. ls; [rewrite sub8 by lia; replace (N.of_nat (8 * S n + r) - 8)%N with (N.of_nat (8 * n + r)) by lia; replace (N.of_nat (8 * S n + r) <? 8)%N with false by (symmetry; apply N.ltb_ge; lia); reflexivity|]. ls; [reflexivity|].
      ls; [reflexivity|]. ls; [xcbn2; rewrite Z.add_0_r; rewrite (map_read i) by lia; cbn [bind]; rewrite map_word; reflexivity|]. ls; [rewrite sx8; reflexivity|]. ls; [rewrite sx_nat by lia; reflexivity|].
      ls; [xcbn2; rewrite Z.add_0_r; rewrite Z.add_0_l; rewrite mread_nat by lia; cbn [bind]; reflexivity|].
      ls; [xcbn2; rewrite slice_word by (assumption || lia); rewrite Z.add_0_r; rewrite over_write by (reflexivity || lia); cbn [bind]; reflexivity|]. ls; [rewrite sx8; reflexivity|].
      replace (Z.of_nat (List.length P) + 8)%Z with (Z.of_nat (List.length (P ++ slice m (8 * word_of i) 8))) by (rewrite app_length; lia). replace (1152 + 8 * Z.of_nat i + 8)%Z with (1152 + 8 * Z.of_nat (i + 1))%Z by lia.
      eapply leads_conseq; [apply (IH (i + 1) _ _ vb _ v9 v10 y _ _ s _ st buf H); [lia|rewrite app_length; lia]|]. cbv beta. intros M (v1 & v8' & c' & z' & P' & -> & E).
      exists v1, v8', c', z', P'. replace (i + 1 + n) with (i + S n) by lia. split; [reflexivity|].
      rewrite E. rewrite <- app_assoc. f_equal. rewrite (rel_slice m st i H) by lia. replace (8 * S n) with (8 + 8 * n) by lia. rewrite <- slice_app. replace (8 * (i + 1)) with (8 * i + 8) by lia. reflexivity.
    + lia.
Qed.
(** from LaneAlignedCheck to the ret; the stack holds the saved rbx *)
Lemma ext_aligned n r i P va vb v8 v9 v10 y c z vs s m st buf : r < 8 -> rel m st -> 8 * i + (8 * n + r) <= 200 -> List.length P + (8 * n + r) <= List.length buf ->
  leads (10 * n + 70) (mkM 177 (mkG va vb (Vi (N.of_nat (8 * n + r))) (Vp Bro (1152 + 8 * Z.of_nat i)) (Vp Bda (Z.of_nat (List.length P))) (Vp Bst 0) (Vi v8) v9 v10) y c z (SV vs :: s) m (over P buf))
    (fun M => exists G' y' c' z', M = mkM 194 G' y' c' z' s m (over (P ++ slice st (8 * i) (8 * n + r)) buf) /\ rbx G' = vs).
Proof.
  intros Hr H Hi Hp. pose proof (rel_facts m st H) as (Lm & Bm & Ls & Bs). eapply leads_weak.
  - eapply leads_bind; [apply (ext_lanes r Hr n i P va vb v8 v9 v10 y c z (SV vs :: s) m st buf H); lia|]. cbv beta. intros M (v1 & v8' & c' & z' & P' & -> & EP).
    assert (LP : List.length P' = List.length P + 8 * n) by (rewrite EP, app_length, slice_length by lia; reflexivity).
    instantiate (1 := 67). destruct r as [|r].
    + eapply leads_weak.
      * ls; [reflexivity|]. ls; [rewrite add8_back by lia; reflexivity|]. ls; [reflexivity|]. ls; [reflexivity|]. ls; [reflexivity|]. apply (leads_0 0). eexists _, _, _, _. split; [rewrite Nat.add_0_r, <- EP; reflexivity|reflexivity].
      * lia.
    + pose proof (word_of_lt (i + n)) as W.
      assert (Eq : P' ++ le_bytes (S r) (le_word (slice m (8 * word_of (i + n)) 8)) = P ++ slice st (8 * i) (8 * n + S r)).
      { rewrite EP. rewrite <- app_assoc. f_equal. rewrite <- slice_app. f_equal.
        rewrite le_bytes_first by (try (apply slice_bytes; exact Bm); rewrite slice_length by lia; lia).
        rewrite (rel_slice m st (i + n) H) by lia. replace (8 * i + 8 * n) with (8 * (i + n)) by lia. change (firstn (S r) (slice st (8 * (i + n)) 8)) with (slice (slice st (8 * (i + n)) 8) 0 (S r)). rewrite slice_slice by lia. rewrite Nat.add_0_r. reflexivity. }
      eapply leads_weak.
      * ls; [reflexivity|]. ls; [rewrite add8_back by lia; reflexivity|].
        ls; [replace (N.of_nat (S r) =? 0)%N with false by (symmetry; apply N.eqb_neq; lia); reflexivity|].
        ls; [xcbn2; rewrite Z.add_0_r; rewrite (map_read (i + n)) by lia; cbn [bind]; rewrite map_word; reflexivity|]. ls; [rewrite sx_nat by lia; rewrite Z.add_0_l; reflexivity|].
        ls; [xcbn2; rewrite Z.add_0_r; rewrite mread_nat by lia; cbn [bind]; reflexivity|].
        eapply leads_bind; [apply ext_loop2; lia|]. cbv beta. intros M (u' & c1 & z1 & ->). ls; [reflexivity|]. ls; [reflexivity|].
        rewrite Eq. apply (leads_0 0). eexists _, _, _, _. split; reflexivity.
      * lia.
  - lia.
Qed.

Lemma extract_leads m st va vb v8 v9 v10 c z s buf y off len hi : rel m st -> off + len <= 200 -> List.length buf = len ->
  leads 450 (mkM 143 (mkG va vb (Vi (N.of_nat len)) (Vi (N.of_nat off + 2 ^ 32 * hi)) (Vp Bda 0) (Vp Bst 0) (Vi v8) v9 v10) y c z s m buf)
    (fun M => exists G' y' c' z', M = mkM 194 G' y' c' z' s m (slice st off len) /\ rbx G' = vb).
Proof.
  intros H Ho Hb. destruct (Nat.eq_dec len 0) as [->|N0].
  { eapply leads_weak.
    - ls; [reflexivity|]. ls; [reflexivity|]. ls; [reflexivity|]. ls; [reflexivity|]. ls; [reflexivity|]. ls; [reflexivity|]. apply (leads_0 0). destruct buf; [|discriminate Hb]. eexists _, _, _, _. split; reflexivity.
    - lia. }
  pose proof (Nat.div_mod off 8 ltac:(discriminate)) as E. pose proof (Nat.mod_upper_bound off 8 ltac:(discriminate)) as U. assert (J : off / 8 < 25) by (apply Nat.div_lt_upper_bound; lia).
  set (j := off / 8) in *. set (k := off mod 8) in *. clearbody j k. subst off. pose proof (word_of_lt j) as W. pose proof (rel_facts m st H) as (Lm & Bm & Ls & Bs).
  assert (Z0 : (N.of_nat len =? 0)%N = false) by (apply N.eqb_neq; lia).
  destruct (Nat.eq_dec k 0) as [->|K0].
  - pose proof (Nat.div_mod len 8 ltac:(discriminate)) as El. pose proof (Nat.mod_upper_bound len 8 ltac:(discriminate)) as Ul. set (n := len / 8) in *. set (r := len mod 8) in *. clearbody n r. rewrite El in *. clear El len.
    eapply leads_weak.
    + ls; [reflexivity|]. ls; [reflexivity|]. ls; [rewrite Z0; reflexivity|]. ls; [reflexivity|]. ls; [reflexivity|]. ls; [rewrite land_lane by assumption; reflexivity|]. ls; [reflexivity|].
      ls; [rewrite sx_nat by lia; reflexivity|]. ls; [rewrite land7 by exact U; reflexivity|]. ls; [reflexivity|].
      replace (1152 + Z.of_nat (8 * j))%Z with (1152 + 8 * Z.of_nat j)%Z by lia.
      change buf with (over [] buf). change 0%Z with (Z.of_nat (List.length (@nil N))) at 2.
      eapply leads_conseq; [apply (ext_aligned n r j [] _ vb v8 _ v10 y _ _ vb s m st buf); assumption || (cbn [List.length]; lia)|]. cbv beta. cbn [app]. intros M (G' & y' & c' & z' & -> & R). exists G', y', c', z'. split; [|exact R]. rewrite over_all by (rewrite slice_length by lia; exact Hb). rewrite Nat.add_0_r. reflexivity.
    + lia.
  - set (t := Nat.min (8 - k) len). assert (T : 1 <= t <= len /\ t <= 8 - k /\ (t = len \/ t = 8 - k)) by (unfold t; lia).
    pose proof (Nat.div_mod (len - t) 8 ltac:(discriminate)) as El. pose proof (Nat.mod_upper_bound (len - t) 8 ltac:(discriminate)) as Ul. set (n := (len - t) / 8) in *. set (r := (len - t) mod 8) in *. clearbody n r.
    eapply leads_weak.
    + ls; [reflexivity|]. ls; [reflexivity|]. ls; [rewrite Z0; reflexivity|]. ls; [reflexivity|]. ls; [reflexivity|]. ls; [rewrite land_lane by assumption; reflexivity|]. ls; [reflexivity|].
      ls; [rewrite sx_nat by lia; reflexivity|]. ls; [rewrite land7 by exact U; replace (N.of_nat k =? 0)%N with false by (symmetry; apply N.eqb_neq; lia); reflexivity|]. ls; [reflexivity|]. ls; [reflexivity|].
      ls; [change 8%N with (N.of_nat 8); rewrite sub64 by lia; reflexivity|].
      ls; [reflexivity|].
      ls; [instantiate (1 := mkM 157 (mkG (Vi (N.of_nat k)) (Vi (N.of_nat t)) (Vi (N.of_nat len)) (Vp Bro (1152 + Z.of_nat (8 * j))) (Vp Bda 0) (Vp Bst 0) (Vi v8) (Vp Bro 1152) v10) y (Some (N.of_nat (8 - k) <? N.of_nat len)%N) (Some (N.of_nat (8 - k) =? N.of_nat len)%N) (SV vb :: s) m buf)|].
      { unfold t. destruct (N.ltb_spec (N.of_nat (8 - k)) (N.of_nat len)) as [A|A]; cbn [negb set_pc]; [replace (Nat.min (8 - k) len) with (8 - k) by lia|replace (Nat.min (8 - k) len) with len by lia]; reflexivity. }
      ls; [rewrite sub64 by lia; reflexivity|].
      ls; [xcbn2; rewrite Z.add_0_r; rewrite (map_read j) by (exact J || lia); cbn [bind]; rewrite map_word; reflexivity|].
      ls; [rewrite sx8; reflexivity|]. ls; [rewrite sx_nat by lia; rewrite Z.add_0_l; reflexivity|]. ls; [rewrite sx_nat by lia; rewrite <- Nat2Z.inj_add; reflexivity|].
      destruct t as [|t']; [lia|]. change buf with (over [] buf). eapply (leads_bind 56); [eapply leads_weak; [|instantiate (1 := 7 * S t'); lia]; apply (ext_loop1 t' [] (8 * word_of j + k)); assumption || (cbn [List.length]; lia)|]. cbv beta. intros M (v1 & u' & c' & z' & ->). cbn [app].
      instantiate (1 := S (10 * n + 70)). ls; [reflexivity|].
      replace (1152 + Z.of_nat (8 * j) + 8)%Z with (1152 + 8 * Z.of_nat (j + 1))%Z by lia. rewrite El. rewrite (rel_slice_part m st j k (S t') H J) by lia.
      assert (LS : List.length (slice st (8 * j + k) (S t')) = S t') by (apply slice_length; lia).
      destruct (Nat.eq_dec (len - S t') 0) as [Z1|Z1].
      * replace n with 0 by lia. replace r with 0 by lia. change (8 * 0 + 0) with 0.
        eapply leads_weak; [|instantiate (1 := 10); lia].
        ls; [reflexivity|]. ls; [reflexivity|]. ls; [reflexivity|]. ls; [reflexivity|]. ls; [reflexivity|]. ls; [reflexivity|]. ls; [reflexivity|]. ls; [reflexivity|].
        rewrite over_all by lia. replace len with (S t') by lia. apply (leads_0 2). eexists _, _, _, _. split; reflexivity.
      * eapply leads_conseq; [apply (ext_aligned n r (j + 1) _ (Vi (N.of_nat k)) (Vi 0) u' v1 v10 y c' z' vb s m st buf Ul H); lia|].
        cbv beta. intros M (G' & y' & c1 & z1 & -> & R). exists G', y', c1, z1. split; [|exact R]. rewrite <- El.
        replace (8 * (j + 1)) with (8 * j + k + S t') by lia. rewrite slice_app. rewrite over_all by (rewrite slice_length by lia; lia). replace (S t' + (len - S t')) with len by lia. reflexivity.
    + lia.
Qed.
