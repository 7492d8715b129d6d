(** The absorbing loops on four states with offsets for which the number of bytes left does not come down to the end of the data *)
From Coq Require Import Arith NArith List Bool Lia.
From Verif Require Import Prelude SpongeModel KeccakSpec KeccakModel KeccakFacts KeccakBytes SnpMem SnpLayout SnpSponge SnpSim SnpSim4 Opt64Model Opt64Facts Opt64More Opt64MoreFacts X86Model Simd256Model Simd256Round Simd256Facts StateSpec Avx2Fast12 StateModel StateFacts FourSpec FourModel FourLay FourAll FourPerm FourSimd Fast4Spec Fast4Model Fast4Facts.
Import ListNotations.

Section Loop.
Context {U : Type}.
Variables (body : U -> nat -> res U) (Rel : U -> list bytes -> Prop) (blk : nat -> list bytes -> list bytes) (k par ser len : nat).
Local Notation need := ((par * 3 + k) * 8).
Hypothesis Hlen : (N.of_nat len < 2 ^ 64)%N.
Hypothesis Hbody : forall s sts p, Rel s sts -> p + need <= len -> exists s', body s p = Ok s' /\ Rel s' (blk p sts).
Lemma loop_stays : need <= len -> forall fuel s sts, Rel s sts -> fast_loop body k par 0 fuel s 0 (N.of_nat len) = OutOfFuel.
Proof.
  intros Hn. induction fuel as [|fuel IH]; intros s sts HR; [reflexivity|]. cbn [fast_loop]. replace (N.of_nat need <=? N.of_nat len)%N with true by (symmetry; apply N.leb_le; lia).
  destruct (Hbody s sts 0 HR Hn) as (s1 & E1 & R1). rewrite E1. cbn [bind]. change (0 + 0 * 8) with 0. replace ((N.of_nat len + 2 ^ 64 - N.of_nat (0 * 8)) mod 2 ^ 64)%N with (N.of_nat len); [exact (IH _ _ R1)|].
  change (N.of_nat (0 * 8)) with 0%N. rewrite N.sub_0_r. replace (N.of_nat len + 2 ^ 64)%N with (N.of_nat len + 1 * 2 ^ 64)%N by lia. rewrite N.mod_add by discriminate. symmetry. apply N.mod_small. exact Hlen.
Qed.
Hypothesis Hser : 1 <= ser.
Hypothesis Hsmall : (N.of_nat (ser * 8 + need) <= 2 ^ 64)%N.
Hypothesis Hpast : forall s sts q, Rel s sts -> len < q -> body s q = UB OutOfBounds.
Lemma loop_past : forall n fuel s sts p, Rel s sts -> n = block_count k par ser (len - p) -> 1 <= n -> p <= len -> len < p + 8 * ser * n -> n < fuel ->
  fast_loop body k par ser fuel s p (N.of_nat (len - p)) = UB OutOfBounds.
Proof.
  induction n as [|n IH]; intros fuel s sts p HR Hn H1 Hp Hq Hf; [lia|]. destruct fuel as [|fuel]; [lia|]. cbn [fast_loop].
  assert (X : need <= len - p). { unfold block_count in Hn. cbv zeta in Hn. destruct (Nat.leb_spec (8 * (par * 3 + k)) (len - p)); lia. }
  destruct (Nat.ltb_spec len p) as [Z|Z]; [lia|]. replace (N.of_nat need <=? N.of_nat (len - p))%N with true by (symmetry; apply N.leb_le; lia).
  destruct (Hbody s sts p HR ltac:(lia)) as (s1 & E1 & R1). rewrite E1. cbn [bind].
  destruct (Nat.le_gt_cases (p + ser * 8) len) as [Y|Y].
  - replace ((N.of_nat (len - p) + 2 ^ 64 - N.of_nat (ser * 8)) mod 2 ^ 64)%N with (N.of_nat (len - (p + ser * 8))).
    2:{ replace (N.of_nat (len - p) + 2 ^ 64 - N.of_nat (ser * 8))%N with (N.of_nat (len - (p + ser * 8)) + 1 * 2 ^ 64)%N by lia. rewrite N.mod_add by discriminate. symmetry. apply N.mod_small. lia. }
    rewrite (count_next k par ser len Hser Hlen p ltac:(lia) Y) in Hn. rewrite Nat.mul_succ_r in Hq. apply (IH fuel s1 (blk p sts) (p + ser * 8) R1); try lia.
  - destruct fuel as [|fuel]; [lia|]. cbn [fast_loop]. rewrite N.mod_small by lia. replace (N.of_nat need <=? N.of_nat (len - p) + 2 ^ 64 - N.of_nat (ser * 8))%N with true by (symmetry; apply N.leb_le; lia).
    rewrite (Hpast s1 _ _ R1 Y). reflexivity.
Qed.
End Loop.

Lemma load64_none i : load64 [] i = UB OutOfBounds.
Proof. unfold load64. replace (8 * i + 8 <=? length (@nil N)) with false by (symmetry; apply Nat.leb_gt; cbn [length]; lia). reflexivity. Qed.
Lemma add_none P m k par : 1 <= k -> add_lanes_all P m [] k par = UB OutOfBounds.
Proof.
  intros H. unfold add_lanes_all, lanes_all. destruct (16 <=? k).
  - unfold Xor_In4 at 1, LOAD256u at 1. rewrite load64_none. reflexivity.
  - destruct k as [|k]; [lia|]. cbn [seq foldM]. unfold Xor_In at 1, LOAD4_64 at 1. rewrite load64_none. reflexivity.
Qed.
Lemma xor21_none par A : xor_in21 [] par A = UB OutOfBounds.
Proof. unfold xor_in21, LOAD4_64 at 1. rewrite load64_none. reflexivity. Qed.
Section Body.
Variables (P : place) (R : vlanes -> vlanes) (perm : bytes -> res bytes) (f g : bytes -> bytes) (d : bytes) (k par : nat).
Hypothesis HP : aligned P.
Hypothesis Bd : is_bytes d.
Hypothesis Hk : k <= 25.
Hypothesis Hd : (N.of_nat (length d) < 2 ^ 64)%N.
Hypothesis Hg : forall st, is_bytes st -> length st = 200 -> g st = f st.
Hypothesis Gg : forall st, is_bytes st -> length st = 200 -> is_bytes (g st) /\ length (g st) = 200.
Hypothesis Hperm : forall m sts, lay4 m sts -> exists m', perm m = Ok m' /\ lay4 m' (map g sts).
Hypothesis HR : forall i A, Forall vok (vlist A) -> forall st, is_bytes st -> length st = 200 -> pj (p_of i) A = copy_from_state st -> pj (p_of i) (R A) = copy_from_state (g st).
Hypothesis Hneed : 8 * (par * 3 + k) <= length d.
Lemma absorb_stays fuel m sts : lay4 m sts -> fast_absorb P R perm fuel m k par 0 d = OutOfFuel.
Proof.
  intros HL. unfold fast_absorb. destruct (Nat.eqb_spec k 21) as [K|K].
  - pose proof HP as (A1 & A2 & A3). unfold aligned32. rewrite A1, A2, A3. cbn [N.eqb andb]. destruct (from_regs m sts HL) as (A & EA & RA). rewrite EA. cbn [bind].
    rewrite (loop_stays _ regs (block f d k par) k par (length d) Hd (fun A sts p HA Hp => register_body R f g d k par Bd Hk Hg Gg HR A sts p K HA Hp) ltac:(lia) fuel A sts RA). reflexivity.
  - apply (loop_stays _ lay4 (block f d k par) k par (length d) Hd (fun m sts p HA Hp => memory_body P perm f g d k par HP Bd Hk Hg Hperm m sts p HA Hp) ltac:(lia) fuel m sts HL).
Qed.
Lemma absorb_past ser m sts : lay4 m sts -> 1 <= k -> 1 <= ser -> (N.of_nat (8 * (par * 3 + k + ser)) <= 2 ^ 64)%N -> length d < 8 * ser * block_count k par ser (length d) ->
  fast_absorb P R perm (S (length d)) m k par ser d = UB OutOfBounds.
Proof.
  intros HL K1 Hs Hb Hc. assert (Hn : 1 <= block_count k par ser (length d) <= length d).
  { unfold block_count. cbv zeta. replace (8 * (par * 3 + k) <=? length d) with true by (symmetry; apply Nat.leb_le; exact Hneed). pose proof (Nat.mul_div_le (length d - 8 * (par * 3 + k)) (8 * ser) ltac:(lia)). nia. }
  assert (Hb' : (N.of_nat (ser * 8 + (par * 3 + k) * 8) <= 2 ^ 64)%N) by lia. unfold fast_absorb. destruct (Nat.eqb_spec k 21) as [K|K].
  - pose proof HP as (A1 & A2 & A3). unfold aligned32. rewrite A1, A2, A3. cbn [N.eqb andb]. destruct (from_regs m sts HL) as (A & EA & RA). rewrite EA. cbn [bind].
    pose proof (loop_past (fun A p => do A <- xor_in21 (skipn p d) par A; Ok (R A)) regs (block f d k par) k par ser (length d) Hd (fun A sts p HA Hp => register_body R f g d k par Bd Hk Hg Gg HR A sts p K HA Hp) Hs Hb') as Q.
    specialize (Q ltac:(intros s sts0 q _ Hq; cbv beta; rewrite skipn_all2 by lia; rewrite xor21_none; reflexivity) _ (S (length d)) A sts 0 RA eq_refl). rewrite Nat.sub_0_r in Q. rewrite Q by lia. reflexivity.
  - pose proof (loop_past (fun m p => do m <- add_lanes_all P m (skipn p d) k par; perm m) lay4 (block f d k par) k par ser (length d) Hd (fun m sts p HA Hp => memory_body P perm f g d k par HP Bd Hk Hg Hperm m sts p HA Hp) Hs Hb') as Q.
    specialize (Q ltac:(intros s sts0 q _ Hq; cbv beta; rewrite skipn_all2 by lia; rewrite add_none by exact K1; reflexivity) _ (S (length d)) m sts 0 HL eq_refl). rewrite Nat.sub_0_r in Q. rewrite Q by lia. reflexivity.
Qed.
End Body.
Lemma both_stay P fuel m sts k par d : aligned P -> lay4 m sts -> is_bytes d -> (N.of_nat (length d) < 2 ^ 64)%N -> k <= 25 -> 8 * (par * 3 + k) <= length d ->
  fast_absorb24 P fuel m k par 0 d = OutOfFuel /\ fast_absorb12 P fuel m k par 0 d = OutOfFuel.
Proof.
  intros HP HL Bd Hd Hk Hn. split.
  - apply (absorb_stays P rounds24 (permute_all P) permute_24rounds permute_24rounds) with (sts := sts); try assumption; try (intros; reflexivity).
    + intros st B L. apply to_state_good.
    + intros m0 sts0 H0. apply permute_all_ok; assumption.
    + intros i A V st B L E. rewrite (proj1 (rounds_four i A V)), E. apply rounds_copy; assumption.
  - apply (absorb_stays P vrounds12 (permute_all_by P vrounds12) (permute_n 12) (permute_n 12)) with (sts := sts); try assumption; try (intros; reflexivity).
    + intros st B L. apply to_state_good.
    + intros m0 sts0 H0. apply permute_all_by_ok; [exact four12|assumption|assumption].
    + intros i A V st B L E. rewrite (four12 i A V), E. apply rounds_n_copy; assumption || lia.
Qed.
Lemma both_past P m sts k par ser d : aligned P -> lay4 m sts -> is_bytes d -> (N.of_nat (length d) < 2 ^ 64)%N -> 1 <= k <= 25 -> 1 <= ser -> 8 * (par * 3 + k) <= length d ->
  (N.of_nat (8 * (par * 3 + k + ser)) <= 2 ^ 64)%N -> length d < 8 * ser * block_count k par ser (length d) ->
  fast_absorb24 P (S (length d)) m k par ser d = UB OutOfBounds /\ fast_absorb12 P (S (length d)) m k par ser d = UB OutOfBounds.
Proof.
  intros HP HL Bd Hd [K1 Hk] Hs Hn Hb Hc. split.
  - apply (absorb_past P rounds24 (permute_all P) permute_24rounds permute_24rounds) with (sts := sts); try assumption; try (intros; reflexivity).
    + intros st B L. apply to_state_good.
    + intros m0 sts0 H0. apply permute_all_ok; assumption.
    + intros i A V st B L E. rewrite (proj1 (rounds_four i A V)), E. apply rounds_copy; assumption.
  - apply (absorb_past P vrounds12 (permute_all_by P vrounds12) (permute_n 12) (permute_n 12)) with (sts := sts); try assumption; try (intros; reflexivity).
    + intros st B L. apply to_state_good.
    + intros m0 sts0 H0. apply permute_all_by_ok; [exact four12|assumption|assumption].
    + intros i A V st B L E. rewrite (four12 i A V), E. apply rounds_n_copy; assumption || lia.
Qed.
Theorem stays_ok P fuel m m' k par d : aligned P -> length m = 800 -> init_all m = Ok m' -> is_bytes d -> (N.of_nat (length d) < 2 ^ 64)%N -> k <= 25 -> 8 * (par * 3 + k) <= length d ->
  fast_absorb24 P fuel m' k par 0 d = OutOfFuel /\ fast_absorb12 P fuel m' k par 0 d = OutOfFuel.
Proof.
  intros HP L E. destruct (sim4_init _ _ _ _ (simd256_simulates P HP) m L) as (m1 & E1 & HL). cbn [simd256 pl_init] in E1. rewrite E1 in E. injection E as <-. apply (both_stay P fuel m1 _ k par d HP HL).
Qed.
Theorem past_ok P m k par ser d : aligned P -> length m = 800 -> is_bytes d -> (N.of_nat (length d) < 2 ^ 64)%N -> 1 <= k <= 25 -> 1 <= ser -> 8 * (par * 3 + k) <= length d ->
  (N.of_nat (8 * (par * 3 + k + ser)) <= 2 ^ 64)%N -> length d < 8 * ser * block_count k par ser (length d) ->
  fast4_calls P m [FastLoop k par ser d] = UB OutOfBounds /\ fast4_calls P m [FastLoop_12rounds k par ser d] = UB OutOfBounds.
Proof.
  intros HP L Bd Hd Hk Hs Hn Hb Hc. destruct (sim4_init _ _ _ _ (simd256_simulates P HP) m L) as (m1 & E1 & HL). cbn [simd256 pl_init] in E1. unfold fast4_calls. rewrite E1. cbn [bind fast4_steps fast4_step].
  destruct (both_past P m1 _ k par ser d HP HL Bd Hd Hk Hs Hn Hb Hc) as [X Y]. rewrite X, Y. split; reflexivity.
Qed.
