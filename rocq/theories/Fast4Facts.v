(** The absorbing loops on four states *)
From Coq Require Import Arith NArith List Bool Lia.
From Verif Require Import Prelude SpongeModel SpongeFacts KeccakSpec KeccakModel KeccakFacts KeccakBytes SnpMem SnpLayout SnpSponge SnpSim SnpSim4 Opt64Model Opt64Facts Opt64More Opt64MoreFacts X86Model Simd256Model Simd256Round Simd256Facts StateSpec PutFacts Avx2Fast12 StateModel StateFacts FourSpec FourModel FourLay FourAll FourPerm FourOpt FourSimd Fast4Spec Fast4Model.
Import ListNotations.

Lemma fold_shift {U} (g : U -> nat -> U) n : forall b a, fold_left g (seq (S b) n) a = fold_left (fun a j => g a (S j)) (seq b n) a.
Proof. induction n as [|n IH]; intros b a; [reflexivity|]. cbn [seq fold_left]. apply IH. Qed.
Lemma fold_ext {U} (g h : U -> nat -> U) l : (forall a j, g a j = h a j) -> forall a, fold_left g l a = fold_left h l a.
Proof. intros H. induction l as [|j l IH]; intros a; [reflexivity|]. cbn [fold_left]. rewrite H. apply IH. Qed.
(** *** the loop, over anything related to four states *)
Section Loop.
Context {U : Type}.
Variables (body : U -> nat -> res U) (Rel : U -> list bytes -> Prop) (blk : nat -> list bytes -> list bytes) (k par ser len : nat).
Local Notation need := ((par * 3 + k) * 8).
Hypothesis Hser : 1 <= ser.
Hypothesis Hlen : (N.of_nat len < 2 ^ 64)%N.
Hypothesis Hbody : forall s sts p, Rel s sts -> p + need <= len -> exists s', body s p = Ok s' /\ Rel s' (blk p sts).
(** blocks at p and beyond *)
Lemma count_next p : p + need <= len -> p + ser * 8 <= len -> block_count k par ser (len - p) = S (block_count k par ser (len - (p + ser * 8))).
Proof.
  intros H1 H2. unfold block_count. cbv zeta. replace (8 * (par * 3 + k)) with need by lia. destruct (Nat.leb_spec need (len - p)) as [A|A]; [|lia]. destruct (Nat.leb_spec need (len - (p + ser * 8))) as [B|B].
  - replace (len - p - need) with (len - (p + ser * 8) - need + 1 * (8 * ser)) by lia. rewrite Nat.div_add by lia. lia.
  - rewrite Nat.div_small by lia. reflexivity.
Qed.
Lemma loop_ok : forall n fuel s sts p, Rel s sts -> n = block_count k par ser (len - p) -> p + 8 * ser * n <= len -> n < fuel ->
  exists s', fast_loop body k par ser fuel s p (N.of_nat (len - p)) = Ok (s', p + 8 * ser * n) /\ Rel s' (fold_left (fun sts j => blk (p + 8 * ser * j) sts) (seq 0 n) sts).
Proof.
  induction n as [|n IH]; intros fuel s sts p HR Hn Hp Hf; (destruct fuel as [|fuel]; [lia|]); cbn [fast_loop].
  - assert (X : len - p < need). { unfold block_count in Hn. cbv zeta in Hn. destruct (Nat.leb_spec (8 * (par * 3 + k)) (len - p)); lia. }
    replace (N.of_nat need <=? N.of_nat (len - p))%N with false by (symmetry; apply N.leb_gt; lia). exists s. split; [f_equal; f_equal; lia|exact HR].
  - assert (X : need <= len - p). { unfold block_count in Hn. cbv zeta in Hn. destruct (Nat.leb_spec (8 * (par * 3 + k)) (len - p)); lia. }
    replace (N.of_nat need <=? N.of_nat (len - p))%N with true by (symmetry; apply N.leb_le; lia).
    assert (Y : p + ser * 8 <= len) by (rewrite Nat.mul_succ_r in Hp; lia).
    destruct (Hbody s sts p HR ltac:(lia)) as (s1 & E1 & R1). rewrite E1. cbn [bind].
    replace ((N.of_nat (len - p) + 2 ^ 64 - N.of_nat (ser * 8)) mod 2 ^ 64)%N with (N.of_nat (len - (p + ser * 8))).
    2:{ replace (N.of_nat (len - p) + 2 ^ 64 - N.of_nat (ser * 8))%N with (N.of_nat (len - (p + ser * 8)) + 1 * 2 ^ 64)%N by lia. rewrite N.mod_add by discriminate. symmetry. apply N.mod_small. lia. }
    destruct (IH fuel s1 (blk p sts) (p + ser * 8) R1) as (s2 & E2 & R2); [rewrite count_next in Hn by lia; lia|rewrite Nat.mul_succ_r in Hp; lia|lia|].
    exists s2. split; [rewrite E2; f_equal; f_equal; rewrite Nat.mul_succ_r; lia|]. cbn [seq fold_left]. rewrite Nat.mul_0_r, Nat.add_0_r. rewrite fold_shift.
    erewrite fold_ext; [exact R2|]. intros a j. cbv beta. f_equal. rewrite Nat.mul_succ_r. lia.
Qed.
End Loop.

(** *** four states in registers *)
Definition regs (A : vlanes) (sts : list bytes) : Prop := length sts = 4 /\ forall i, i < 4 -> length (nth i sts []) = 200 /\ is_bytes (nth i sts []) /\ pj (p_of i) A = copy_from_state (nth i sts []).
Lemma regs_vok A sts : regs A sts -> Forall vok (vlist A).
Proof.
  intros [_ H]. assert (X : forall i, i < 4 -> Forall b64 (map (p_of i) (vlist A))).
  { intros i Hi. destruct (H i Hi) as (_ & B & E). change (map (p_of i) (vlist A)) with (lanes_list (pj (p_of i) A)). rewrite E. apply from_b64. exact B. }
  pose proof (X 0 ltac:(lia)) as X0. pose proof (X 1 ltac:(lia)) as X1. pose proof (X 2 ltac:(lia)) as X2. pose proof (X 3 ltac:(lia)) as X3. clear X H.
  rewrite Forall_map in X0, X1, X2, X3. rewrite Forall_forall in *. intros v Hv. split; [exact (X0 v Hv)|]. split; [exact (X1 v Hv)|]. split; [exact (X2 v Hv)|exact (X3 v Hv)].
Qed.
Lemma from_regs m sts : lay4 m sts -> exists A, copyFromState m = Ok A /\ regs A sts.
Proof.
  intros (Lm & Bm & Ls & Bs & H). change (8 * 100) with 800 in Lm. destruct (copyFrom_spec m Lm) as (A & E & S). exists A. split; [exact E|]. split; [exact Ls|]. intros i Hi. destruct (Bs i Hi) as [L B]. split; [exact L|]. split; [exact B|].
  apply lanes_eq. rewrite copy_list. apply (nth_ext _ _ 0%N 0%N); [reflexivity|]. change (length (lanes_list (pj (p_of i) A))) with 25. intros t Ht. rewrite lanes_nth by exact Ht.
  transitivity (p_of i (nth t (vlist A) (V4 0 0 0 0))); [|rewrite S by assumption; unfold lane; rewrite H by assumption; reflexivity].
  rewrite <- (map_nth (p_of i)). change (lanes_list (pj (p_of i) A)) with (map (p_of i) (vlist A)). apply nth_indep. rewrite map_length. exact Ht.
Qed.
Lemma to_regs m A sts : length m = 800 -> is_bytes m -> regs A sts -> exists m', copyToState m A = Ok m' /\ lay4 m' sts.
Proof.
  intros Lm Bm [Ls H]. rewrite copyTo_fold. destruct (store_list (vlist A) 0 m Bm Lm ltac:(cbn; lia)) as (m' & E' & L' & B' & S'). change (length (vlist A)) with 25 in *. exists m'. split; [exact E'|].
  split; [exact L'|]. split; [exact B'|]. split; [exact Ls|]. split; [intros i Hi; destruct (H i Hi) as (L & B & _); split; assumption|].
  intros i j Hi Hj. destruct (H i Hi) as (L & B & E). rewrite S' by assumption. replace ((0 <=? j) && (j <? 0 + 25)) with true by (symmetry; apply andb_true_iff; split; [reflexivity|apply Nat.ltb_lt; lia]). rewrite Nat.sub_0_r.
  rewrite <- (to_from (nth i sts []) B L) at 1. rewrite to_state_slice by exact Hj. f_equal. rewrite <- E. change (lanes_list (pj (p_of i) A)) with (map (p_of i) (vlist A)).
  rewrite (nth_indep _ 0%N (p_of i (V4 0 0 0 0))) by (rewrite map_length; exact Hj). symmetry. apply map_nth.
Qed.
Lemma p_xor i a b : p_of i (XOR256 a b) = N.lxor (p_of i a) (p_of i b).
Proof. do 4 (try destruct i as [|i]); reflexivity. Qed.
Lemma lane_skip (d : bytes) a b : lane (skipn (8 * a) d) b = lane d (a + b).
Proof. unfold lane, slice. rewrite skip_skip. do 3 f_equal. lia. Qed.
Definition xst (d : bytes) (par : nat) (i : nat) (st : bytes) : bytes := xin st 0 (firstn (8 * 21) (skipn (8 * par * i) d)).
Lemma xor21_ok A d par sts : regs A sts -> is_bytes d -> (par * 3 + 21) * 8 <= length d -> exists A', xor_in21 d par A = Ok A' /\ regs A' (each (xst d par) sts).
Proof.
  intros [Ls H] Bd Hd. unfold xor_in21. rewrite !LOAD4_ok by lia. cbn [bind]. eexists. split; [reflexivity|].
  assert (Le : length (each (xst d par) sts) = 4) by (rewrite each_nth by exact Ls; reflexivity). split; [exact Le|]. intros i Hi. rewrite each_nth by exact Ls. rewrite nth_map4 by exact Hi.
  destruct (H i Hi) as (L & B & E). unfold xst. set (st := nth i sts []) in *. clearbody st. set (dd := skipn (8 * par * i) d).
  assert (Hoff : par * i <= par * 3) by (apply Nat.mul_le_mono_l; lia). assert (Ldd : 8 * 21 <= length dd) by (unfold dd; rewrite skipn_length; lia). assert (Bdd : is_bytes dd) by (apply skipn_bytes; exact Bd).
  split; [rewrite xin_length; exact L|]. split; [apply xin_bytes; [exact B|apply firstn_bytes; exact Bdd]|].
  assert (LI : forall a, a < 21 -> lane (xin st 0 (firstn (8 * 21) dd)) a = N.lxor (lane st a) (lane d (par * i + a))).
  { intros a Ha. rewrite (lane_of_xin_in st dd a B Bdd L ltac:(lia) ltac:(lia) 21 Ha Ldd). f_equal. unfold dd. replace (8 * par * i) with (8 * (par * i)) by lia. apply lane_skip. }
  assert (LO : forall a, 21 <= a -> a < 25 -> lane (xin st 0 (firstn (8 * 21) dd)) a = lane st a) by (intros a Ha Hb; apply lane_of_xin_out; assumption).
  apply lanes_eq. rewrite copy_list. apply (f_equal lanes_list) in E. rewrite copy_list in E. destruct A as [Aba Abe Abi Abo Abu Aga Age Agi Ago Agu Aka Ake Aki Ako Aku Ama Ame Ami Amo Amu Asa Ase Asi Aso Asu].
  unfold pj in E |- *. unfold lanes_list in E |- *. cbn [v_ba v_be v_bi v_bo v_bu v_ga v_ge v_gi v_go v_gu v_ka v_ke v_ki v_ko v_ku v_ma v_me v_mi v_mo v_mu v_sa v_se v_si v_so v_su l_ba l_be l_bi l_bo l_bu l_ga l_ge l_gi l_go l_gu l_ka l_ke l_ki l_ko l_ku l_ma l_me l_mi l_mo l_mu l_sa l_se l_si l_so l_su seq map] in E |- *.
  injection E as E0 E1 E2 E3 E4 E5 E6 E7 E8 E9 E10 E11 E12 E13 E14 E15 E16 E17 E18 E19 E20 E21 E22 E23 E24.
  rewrite !p_xor, !p_vcol by exact Hi. rewrite !LI by lia. rewrite !LO by lia. rewrite E0, E1, E2, E3, E4, E5, E6, E7, E8, E9, E10, E11, E12, E13, E14, E15, E16, E17, E18, E19, E20, E21, E22, E23, E24. reflexivity.
Qed.

(** *** the two forms of a block *)
Definition block (f : bytes -> bytes) (d : bytes) (k par p : nat) (sts : list bytes) : list bytes :=
  each (fun i st => f (put st 0 (xor_with (part st 0 (8 * k)) (part d (p + 8 * par * i) (8 * k))))) sts.
Lemma part_skip (d : bytes) p a n : part (skipn p d) a n = part d (p + a) n.
Proof. unfold part. rewrite skip_skip. reflexivity. Qed.
Lemma each_map (f : bytes -> bytes) g sts : map f (each g sts) = each (fun i st => f (g i st)) sts.
Proof. unfold each. rewrite map_map. reflexivity. Qed.
Lemma each_ext f g sts : length sts = 4 -> (forall i, i < 4 -> f i (nth i sts []) = g i (nth i sts [])) -> each f sts = each g sts.
Proof. intros L H. rewrite !each_nth by exact L. apply map_ext_in. intros i Hi. apply in_seq in Hi. apply H. lia. Qed.
Section Body.
Variables (P : place) (R : vlanes -> vlanes) (perm : bytes -> res bytes) (f g : bytes -> bytes) (d : bytes) (k par : nat).
Hypothesis HP : aligned P.
Hypothesis Bd : is_bytes d.
Hypothesis Hk : k <= 25.
Hypothesis Hg : forall st, is_bytes st -> length st = 200 -> g st = f st.
Hypothesis Gg : forall st, is_bytes st -> length st = 200 -> is_bytes (g st) /\ length (g st) = 200.
Hypothesis Hperm : forall m sts, lay4 m sts -> exists m', perm m = Ok m' /\ lay4 m' (map g sts).
Hypothesis HR : forall i A, Forall vok (vlist A) -> forall st, is_bytes st -> length st = 200 -> pj (p_of i) A = copy_from_state st -> pj (p_of i) (R A) = copy_from_state (g st).
Lemma memory_body m sts p : lay4 m sts -> p + (par * 3 + k) * 8 <= length d ->
  exists m', (do m <- add_lanes_all P m (skipn p d) k par; perm m) = Ok m' /\ lay4 m' (block f d k par p sts).
Proof.
  intros HL Hp. pose proof (lay_four _ _ HL) as L4. assert (Bs : is_bytes (skipn p d)) by (apply skipn_bytes; exact Bd). assert (Ld : 8 * par * 3 + 8 * k <= length (skipn p d)) by (rewrite skipn_length; lia).
  destruct (add_all_ok P HP (skipn p d) k par sts Bs Hk Ld L4 (fun i Hi => lay_states m sts i HL Hi) m HL) as (m1 & E1 & H1). rewrite E1. cbn [bind].
  destruct (Hperm m1 _ H1) as (m2 & E2 & H2). exists m2. split; [exact E2|].
  rewrite (map_states g f m1 _ H1 Hg) in H2. unfold block. rewrite each_nth by exact L4. rewrite map_map in H2. erewrite map_ext; [exact H2|]. intros i. cbv beta. unfold added. rewrite xor_with_xorl, <- part_skip. reflexivity.
Qed.
Lemma register_body A sts p : k = 21 -> regs A sts -> p + (par * 3 + k) * 8 <= length d ->
  exists A', (do A <- xor_in21 (skipn p d) par A; Ok (R A)) = Ok A' /\ regs A' (block f d k par p sts).
Proof.
  intros -> HA Hp. assert (Bs : is_bytes (skipn p d)) by (apply skipn_bytes; exact Bd). assert (Ld : (par * 3 + 21) * 8 <= length (skipn p d)) by (rewrite skipn_length; lia).
  destruct (xor21_ok A (skipn p d) par sts HA Bs Ld) as (A1 & E1 & H1). rewrite E1. cbn [bind]. exists (R A1). split; [reflexivity|].
  pose proof (regs_vok _ _ H1) as V1. destruct H1 as [L1 H1]. destruct HA as [L4 HA].
  assert (EB : block f d 21 par p sts = map g (each (xst (skipn p d) par) sts)).
  { unfold block. rewrite each_map. apply each_ext; [exact L4|]. intros i Hi. destruct (HA i Hi) as (L & B & _). specialize (H1 i Hi). rewrite each_nth in H1 by exact L4. rewrite nth_map4 in H1 by exact Hi. destruct H1 as (LX & BX & _).
    rewrite Hg by assumption. f_equal. unfold xst. assert (Hoff : par * i <= par * 3) by (apply Nat.mul_le_mono_l; lia). assert (LF : length (firstn (8 * 21) (skipn (8 * par * i) (skipn p d))) = 8 * 21) by (rewrite firstn_length, !skipn_length in *; lia).
    rewrite xin_put by (rewrite LF; apply (Nat.le_trans _ 200); [lia|apply Nat.eq_le_incl; symmetry; exact L]). rewrite LF. rewrite skip_skip. reflexivity. }
  rewrite EB. split; [rewrite map_length; exact L1|]. intros i Hi. destruct (H1 i Hi) as (L & B & E).
  rewrite (nth_indep _ [] (g [])) by (rewrite map_length; lia). rewrite map_nth. destruct (Gg _ B L) as [Bg Lg]. split; [exact Lg|]. split; [exact Bg|]. apply HR; assumption.
Qed.
Lemma fast_absorb_ok ser m sts : lay4 m sts -> (N.of_nat (length d) < 2 ^ 64)%N -> 1 <= ser -> 8 * ser * block_count k par ser (length d) <= length d ->
  exists m', fast_absorb P R perm (S (length d)) m k par ser d = Ok (m', 8 * ser * block_count k par ser (length d)) /\ lay4 m' (absorb_four f sts k par ser d).
Proof.
  intros HL Hd Hs Hc. set (n := block_count k par ser (length d)) in *. assert (Hn : n < S (length d)) by nia. unfold fast_absorb, absorb_four. fold n.
  destruct (Nat.eqb_spec k 21) as [K|K].
  - destruct HP as (A1 & A2 & A3). unfold aligned32. rewrite A1, A2, A3. cbn [N.eqb andb]. destruct (from_regs m sts HL) as (A & EA & RA). rewrite EA. cbn [bind].
    destruct (loop_ok _ regs (block f d k par) k par ser (length d) Hs Hd (fun A sts p HA Hp => register_body A sts p K HA Hp) n (S (length d)) A sts 0 RA) as (A' & E' & R'); [rewrite Nat.sub_0_r; reflexivity|exact Hc|exact Hn|].
    rewrite Nat.sub_0_r in E'. rewrite E'. cbn [bind]. destruct HL as (Lm & Bm & _). destruct (to_regs m A' _ Lm Bm R') as (m' & E2 & H2). rewrite E2. cbn [bind]. exists m'. split; [reflexivity|exact H2].
  - destruct (loop_ok _ lay4 (block f d k par) k par ser (length d) Hs Hd (fun m sts p HA Hp => memory_body m sts p HA Hp) n (S (length d)) m sts 0 HL) as (m' & E' & R'); [rewrite Nat.sub_0_r; reflexivity|exact Hc|exact Hn|].
    rewrite Nat.sub_0_r in E'. exists m'. split; [exact E'|exact R'].
Qed.
End Body.
(** *** any calls *)
Lemma absorb24_ok P m (sts : list bytes) k par ser d : aligned P -> lay4 m sts -> fast_ok (FastLoop k par ser d) ->
  exists m', fast_absorb24 P (S (length d)) m k par ser d = Ok (m', 8 * ser * block_count k par ser (length d)) /\ lay4 m' (absorb_four (fun st => bytes_of (keccak_f (bits_of st))) sts k par ser d).
Proof.
  intros HP HL (Bd & Hd & Hk & Hs & Hc). apply (fast_absorb_ok P rounds24 (permute_all P) _ permute_24rounds); try assumption.
  - intros st B L. apply perm24_back; assumption.
  - intros st B L. apply to_state_good.
  - intros m0 sts0 H0. apply permute_all_ok; assumption.
  - intros i A V st B L E. rewrite (proj1 (rounds_four i A V)), E. apply rounds_copy; assumption.
Qed.
Lemma absorb12_ok P m (sts : list bytes) k par ser d : aligned P -> lay4 m sts -> fast_ok (FastLoop_12rounds k par ser d) ->
  exists m', fast_absorb12 P (S (length d)) m k par ser d = Ok (m', 8 * ser * block_count k par ser (length d)) /\ lay4 m' (absorb_four (fun st => bytes_of (keccak_p 12 (bits_of st))) sts k par ser d).
Proof.
  intros HP HL (Bd & Hd & Hk & Hs & Hc). apply (fast_absorb_ok P vrounds12 (permute_all_by P vrounds12) _ (permute_n 12)); try assumption.
  - intros st B L. apply perm_back; assumption || lia.
  - intros st B L. apply to_state_good.
  - intros m0 sts0 H0. apply permute_all_by_ok; [exact four12|assumption|assumption].
  - intros i A V st B L E. rewrite (four12 i A V), E. apply rounds_n_copy; assumption || lia.
Qed.
Lemma fast4_step_ok P m (sts : list bytes) c : aligned P -> lay4 m sts -> fast_ok c ->
  exists m', fast4_step P m c = Ok (m', snd (fast_step sts c)) /\ lay4 m' (fst (fast_step sts c)).
Proof.
  intros HP HL H. destruct c as [c|k par ser d|k par ser d]; cbn [fast4_step fast_step].
  - apply simd_step_ok; assumption.
  - destruct (absorb24_ok P m sts k par ser d HP HL H) as (m' & E & H'). exists m'. rewrite E. cbn [bind]. split; [reflexivity|exact H'].
  - destruct (absorb12_ok P m sts k par ser d HP HL H) as (m' & E & H'). exists m'. rewrite E. cbn [bind]. split; [reflexivity|exact H'].
Qed.
Lemma fast4_steps_ok P : aligned P -> forall cs m (sts : list bytes), lay4 m sts -> Forall fast_ok cs -> fast4_steps P m cs = Ok (fast_steps sts cs).
Proof.
  intros HP. induction cs as [|c cs IH]; intros m sts HL H; [reflexivity|]. inversion_clear H as [|? ? H1 H2]. cbn [fast4_steps fast_steps]. destruct (fast4_step_ok P m sts c HP HL H1) as (m' & E & HL'). rewrite E. cbn [bind].
  destruct (fast_step sts c) as [sts' o]. cbn [fst snd] in *. rewrite (IH m' sts' HL' H2). reflexivity.
Qed.
Theorem fast4_calls_ok P m cs : aligned P -> length m = 800 -> Forall fast_ok cs -> fast4_calls P m cs = Ok (fast_run cs).
Proof.
  intros HP L H. destruct (sim4_init _ _ _ _ (simd256_simulates P HP) m L) as (m' & E & HL). unfold fast4_calls. cbn [simd256 pl_init] in E. rewrite E. cbn [bind]. apply fast4_steps_ok; assumption.
Qed.
