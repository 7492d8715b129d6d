(** keccak/avx2's KeccakP-1600 does to its representation of a state what the byte-wise operations do to the 200 bytes *)
From Coq Require Import Arith NArith ZArith String List Bool Lia.
From Verif Require Import Prelude SpongeModel SpongeFacts KeccakModel KeccakFacts KeccakBytes SnpSponge SnpMem SnpLayout SnpSim Opt64Model Opt64Facts X86Model Avx2Code Avx2Round Avx2Perm Avx2Mem Avx2Facts Avx2Calls Avx2Add Avx2Extract Avx2Block Avx2Fast Avx2Model.
Import ListNotations.

Lemma ymm_len j : List.length (ymm j) = 16.
Proof. unfold ymm. rewrite map_length. apply seq_length. Qed.
Lemma leads_ret B p f G y ms md M0 q (Q : machine -> Prop) : find_label code p = Ok M0 -> nth_error code q = Some (In Iret) -> B < f ->
  leads B (mkM M0 G y None None [] ms md) (fun M => exists G' y' c' z' m' d', M = mkM q G' y' c' z' [] m' d' /\ Q M) ->
  exists M, call code constants f p G y ms md = Ok M /\ Q M.
Proof.
  intros E C L (k & M' & Hk & R & G' & y' & c' & z' & m' & d' & -> & q0). unfold call. rewrite E. cbn [bind]. eexists. split; [|exact q0].
  eapply run_reach; [exact R| |lia]. unfold step, get. cbn [pc]. rewrite C. cbn [bind stk]. reflexivity.
Qed.
Lemma rel_zeros : rel (repeat 0%N 200) (repeat 0%N 200).
Proof.
  pose proof (rel_memory (copy_from_state (repeat 0%N 200))) as R. rewrite to_from in R by (try apply repeat_length; apply (is_bytes_zeros 200)).
  replace (memory (copy_from_state (repeat 0%N 200))) with (repeat 0%N 200) in R by (vm_compute; reflexivity). exact R.
Qed.

(** *** calls: they return, with the result, rbx as it was and the data as it was *)
Definition kept (j : junk) (d : bytes) (M : machine) : Prop := rbx (gp M) = Vi (j_rbx j) /\ mda M = d.

Lemma call_init j m vs vd vc : List.length m = 200 ->
  exists M, call code constants 20 "KeccakP1600_Initialize" (regs j vs vd vc) (ymm j) m [] = Ok M /\ mst M = repeat 0%N 200 /\ kept j [] M.
Proof.
  intros H. apply (leads_ret 10 "KeccakP1600_Initialize" 20 _ _ _ _ 0 9 (fun M => mst M = repeat 0%N 200 /\ kept j [] M) ltac:(vm_compute; reflexivity) ltac:(vm_compute; reflexivity) ltac:(clear; lia)).
  pose proof (ymm_len j) as L. destruct (ymm j) as [|y0 y]; [discriminate L|]. eapply leads_conseq; [apply init_leads; exact H|]. cbv beta. intros M (G' & y' & c' & z' & -> & GB). eexists _, _, _, _, _, _. split; [reflexivity|]. split; [reflexivity|]. split; [exact GB|reflexivity].
Qed.
Lemma call_add_byte j m st vc b hb off hi : rel m st -> is_byte b -> off < 200 ->
  exists M, call code constants 20 "KeccakP1600_AddByte" (regs j (Vi (b + 256 * hb)) (Vi (N.of_nat off + 2 ^ 32 * hi)) vc) (ymm j) m [] = Ok M /\ rel (mst M) (xin st off [b]) /\ kept j [] M.
Proof.
  intros R Hb Ho. apply (leads_ret 9 "KeccakP1600_AddByte" 20 _ _ _ _ 10 19 (fun M => rel (mst M) (xin st off [b]) /\ kept j [] M) ltac:(vm_compute; reflexivity) ltac:(vm_compute; reflexivity) ltac:(clear; lia)).
  eapply leads_conseq; [apply (add_byte_leads m st); assumption|]. cbv beta. intros M (G' & y' & c' & z' & m' & -> & GB & R'). eexists _, _, _, _, _, _. split; [reflexivity|]. split; [exact R'|]. split; [exact GB|reflexivity].
Qed.
Lemma call_add_bytes j m st d off len hi : rel m st -> is_bytes d -> off + len <= 200 -> len <= List.length d ->
  exists M, call code constants 500 "KeccakP1600_AddBytes" (regs j (Vp Bda 0) (Vi (N.of_nat off + 2 ^ 32 * hi)) (Vi (N.of_nat len))) (ymm j) m d = Ok M /\ rel (mst M) (xin st off (firstn len d)) /\ kept j d M.
Proof.
  intros R Hd Ho Hl. apply (leads_ret 450 "KeccakP1600_AddBytes" 500 _ _ _ _ 20 68 (fun M => rel (mst M) (xin st off (firstn len d)) /\ kept j d M) ltac:(vm_compute; reflexivity) ltac:(vm_compute; reflexivity) ltac:(clear; lia)).
  eapply leads_conseq; [apply (add_bytes_leads m st); assumption|]. cbv beta. intros M (G' & y' & c' & z' & m' & -> & GB & R'). eexists _, _, _, _, _, _. split; [reflexivity|]. split; [exact R'|]. split; [exact GB|reflexivity].
Qed.
Lemma call_extract j m st buf off len hi : rel m st -> off + len <= 200 -> List.length buf = len ->
  exists M, call code constants 500 "KeccakP1600_ExtractBytes" (regs j (Vp Bda 0) (Vi (N.of_nat off + 2 ^ 32 * hi)) (Vi (N.of_nat len))) (ymm j) m buf = Ok M /\ mst M = m /\ kept j (slice st off len) M.
Proof.
  intros R Ho Hl. apply (leads_ret 450 "KeccakP1600_ExtractBytes" 500 _ _ _ _ 143 194 (fun M => mst M = m /\ kept j (slice st off len) M) ltac:(vm_compute; reflexivity) ltac:(vm_compute; reflexivity) ltac:(clear; lia)).
  eapply leads_conseq; [apply (extract_leads m st); [exact R|exact Ho|exact Hl]|]. cbv beta. intros M (G' & y' & c' & z' & -> & GB). eexists _, _, _, _, _, _. split; [reflexivity|]. split; [reflexivity|]. split; [exact GB|reflexivity].
Qed.
Lemma call_permute j m st vs vd vc : rel m st ->
  exists M, call code constants 2800 "KeccakP1600_Permute_24rounds" (regs j vs vd vc) (ymm j) m [] = Ok M /\ rel (mst M) (permute_24rounds st) /\ kept j [] M.
Proof.
  intros R. apply (leads_ret 2700 "KeccakP1600_Permute_24rounds" 2800 _ _ _ _ 366 389 (fun M => rel (mst M) (permute_24rounds st) /\ kept j [] M) ltac:(vm_compute; reflexivity) ltac:(vm_compute; reflexivity) ltac:(clear; lia)).
  eapply leads_conseq; [apply (permute_leads m st); [exact R|apply ymm_len]|]. cbv beta. intros M (G' & y' & c' & z' & m' & -> & GB & _ & R'). eexists _, _, _, _, _, _. split; [reflexivity|]. split; [exact R'|]. split; [exact GB|reflexivity].
Qed.
Lemma call_fast j fuel m st lanes d st' d' : rel m st -> is_bytes d -> small d -> lanes = 17 \/ lanes = 21 -> absorb_blocks permute_24rounds (8 * lanes) fuel st d = Ok (st', d') ->
  exists M p, call code constants (2660 * fuel + 100) "KeccakF1600_FastLoop_Absorb" (regs j (Vi (N.of_nat lanes)) (Vp Bda 0) (Vi (N.of_nat (List.length d)))) (ymm j) m d = Ok M /\
    rel (mst M) st' /\ rax (gp M) = Vi (N.of_nat p) /\ skipn p d = d' /\ p <= List.length d /\ kept j d M.
Proof.
  intros R Hd Sd HL A.
  destruct (leads_ret (2660 * fuel + 60) "KeccakF1600_FastLoop_Absorb" (2660 * fuel + 100) (regs j (Vi (N.of_nat lanes)) (Vp Bda 0) (Vi (N.of_nat (List.length d)))) (ymm j) m d 440 510
      (fun M => exists p, rel (mst M) st' /\ rax (gp M) = Vi (N.of_nat p) /\ skipn p d = d' /\ p <= List.length d /\ kept j d M) ltac:(vm_compute; reflexivity) ltac:(vm_compute; reflexivity) ltac:(clear; lia)) as (M & E & p & q).
  - eapply leads_conseq; [apply (fast_leads lanes fuel m st d st' d'); [exact HL|exact R|exact Hd|exact A|apply ymm_len|exact Sd]|]. cbv beta. intros M (p & G' & y' & c' & z' & m' & -> & R' & X1 & GB & X2 & X3). eexists _, _, _, _, _, _. split; [reflexivity|]. exists p.
    split; [exact R'|]. split; [exact X1|]. split; [exact X2|]. split; [exact X3|]. split; [exact GB|reflexivity].
  - exists M, p. split; [exact E|exact q].
Qed.

Lemma avx2_simulates J : simulates (avx2 J) 200 rel permute_24rounds.
Proof.
  constructor; cbn [avx2 snp_init snp_add_byte snp_add_bytes snp_extract snp_permute snp_fast].
  - intros m H. exists (repeat 0%N 200). split; [|exact rel_zeros]. unfold asm_init. cbv zeta. destruct (call_init (J m) m (Vi (j_rsi (J m))) (Vi (j_rdx (J m))) (Vi (j_rcx (J m))) H) as (M & E & q & _). rewrite E. cbn [bind]. rewrite q. reflexivity.
  - intros m st b off st' R Hb E. apply add_byte_inv in E. destruct E as [H1 ->]. pose proof (rel_facts m st R) as (Lm & Bm & Ls & Bs). rewrite Ls in H1. unfold asm_add_byte. cbv zeta.
    destruct (call_add_byte (J m) m st (Vi (j_rcx (J m))) b (j_byte (J m)) off (j_half (J m)) R Hb H1) as (M & E & q & _). rewrite E. cbn [bind]. exists (mst M). split; [reflexivity|exact q].
  - intros m st d off len st' R Hd E. apply add_bytes_inv in E. destruct E as (H1 & H2 & ->). pose proof (rel_facts m st R) as (Lm & Bm & Ls & Bs). rewrite Ls in H1. unfold asm_add_bytes. cbv zeta.
    destruct (call_add_bytes (J m) m st d off (N.to_nat len) (j_half (J m)) R Hd H1 H2) as (M & E & q & _). rewrite N2Nat.id in E. rewrite E. cbn [bind]. exists (mst M). split; [reflexivity|exact q].
  - intros m st off len o R _ E. apply extract_inv in E. destruct E as (H1 & ->). pose proof (rel_facts m st R) as (Lm & Bm & Ls & Bs). rewrite Ls in H1. unfold asm_extract. cbv zeta.
    destruct (call_extract (J m) m st (map (j_buf (J m)) (seq 0 (N.to_nat len))) off (N.to_nat len) (j_half (J m)) R H1) as (M & E & _ & _ & q); [rewrite map_length; apply seq_length|]. rewrite N2Nat.id in E. rewrite E. cbn [bind]. rewrite q. reflexivity.
  - intros m st R. unfold asm_permute. cbv zeta. destruct (call_permute (J m) m st (Vi (j_rsi (J m))) (Vi (j_rdx (J m))) (Vi (j_rcx (J m))) R) as (M & E & q & _). rewrite E. cbn [bind]. exists (mst M). split; [reflexivity|exact q].
  - intros fuel m st lanes d st' d' R Hd Sd HL A. unfold asm_fast. cbv zeta. destruct (call_fast (J m) fuel m st lanes d st' d' R Hd Sd HL A) as (M & p & E & q1 & q2 & q3 & _). rewrite E. cbn [bind]. rewrite q2. exists (mst M), p. rewrite Nat2N.id. split; [reflexivity|]. split; assumption.
Qed.

(** every memory holds some state *)
Lemma some_state m : List.length m = 200 -> is_bytes m -> exists st, rel m st.
Proof.
  intros L B. exists (copy_to_state (list_lanes (map (fun j => le_word (slice m (8 * word_of j) 8)) (seq 0 25)))).
  pose proof (rel_facts _ _ (rel_memory (list_lanes (map (fun j => le_word (slice m (8 * word_of j) 8)) (seq 0 25))))) as (_ & _ & L' & B').
  apply rel_intro; try assumption. intros j Hj. rewrite to_state_slice by exact Hj. rewrite list_lanes_list by reflexivity.
  pose proof (word_of_lt j). rewrite (nth_indep _ 0%N (le_word (slice m (8 * word_of 0) 8))) by (rewrite map_length, seq_length; lia). rewrite (map_nth (fun j => le_word (slice m (8 * word_of j) 8)) (seq 0 25) 0 j). rewrite seq_nth by exact Hj. symmetry. apply slice_word; assumption || lia.
Qed.
(** the memory after a call *)
Definition well (m : bytes) : Prop := List.length m = 200 /\ is_bytes m.
Lemma rel_well m st : rel m st -> well m.
Proof. intros R. pose proof (rel_facts m st R) as (L & B & _). split; assumption. Qed.
Lemma calls_safe j m (W : well m) :
  (forall m0 vs vd vc, List.length m0 = 200 -> exists M, call code constants 20 "KeccakP1600_Initialize" (regs j vs vd vc) (ymm j) m0 [] = Ok M /\ well (mst M) /\ kept j [] M) /\
  (forall vc b hb off hi, is_byte b -> off < 200 -> exists M, call code constants 20 "KeccakP1600_AddByte" (regs j (Vi (b + 256 * hb)) (Vi (N.of_nat off + 2 ^ 32 * hi)) vc) (ymm j) m [] = Ok M /\ well (mst M) /\ kept j [] M) /\
  (forall d off len hi, is_bytes d -> off + len <= 200 -> len <= List.length d ->
    exists M, call code constants 500 "KeccakP1600_AddBytes" (regs j (Vp Bda 0) (Vi (N.of_nat off + 2 ^ 32 * hi)) (Vi (N.of_nat len))) (ymm j) m d = Ok M /\ well (mst M) /\ kept j d M) /\
  (forall buf off len hi, off + len <= 200 -> List.length buf = len ->
    exists M, call code constants 500 "KeccakP1600_ExtractBytes" (regs j (Vp Bda 0) (Vi (N.of_nat off + 2 ^ 32 * hi)) (Vi (N.of_nat len))) (ymm j) m buf = Ok M /\ mst M = m /\ List.length (mda M) = len /\ rbx (gp M) = Vi (j_rbx j)) /\
  (forall vs vd vc, exists M, call code constants 2800 "KeccakP1600_Permute_24rounds" (regs j vs vd vc) (ymm j) m [] = Ok M /\ well (mst M) /\ kept j [] M) /\
  (forall lanes d, is_bytes d -> (N.of_nat (List.length d) < 2 ^ 63)%N -> lanes = 17 \/ lanes = 21 ->
    exists fuel M, call code constants fuel "KeccakF1600_FastLoop_Absorb" (regs j (Vi (N.of_nat lanes)) (Vp Bda 0) (Vi (N.of_nat (List.length d)))) (ymm j) m d = Ok M /\ well (mst M) /\
      rax (gp M) = Vi (N.of_nat (8 * lanes * (List.length d / (8 * lanes)))) /\ kept j d M).
Proof.
  destruct W as [Lm Bm]. destruct (some_state m Lm Bm) as (st & R). pose proof (rel_facts m st R) as (_ & _ & Ls & Bs). split; [|split; [|split; [|split; [|split]]]].
  - intros m0 vs vd vc H. destruct (call_init j m0 vs vd vc H) as (M & E & q & K). exists M. split; [exact E|]. split; [rewrite q; split; [apply repeat_length|apply (is_bytes_zeros 200)]|exact K].
  - intros vc b hb off hi Hb Ho. destruct (call_add_byte j m st vc b hb off hi R Hb Ho) as (M & E & q & K). exists M. split; [exact E|]. split; [exact (rel_well _ _ q)|exact K].
  - intros d off len hi Hd Ho Hl. destruct (call_add_bytes j m st d off len hi R Hd Ho Hl) as (M & E & q & K). exists M. split; [exact E|]. split; [exact (rel_well _ _ q)|exact K].
  - intros buf off len hi Ho Hl. destruct (call_extract j m st buf off len hi R Ho Hl) as (M & E & q & K1 & K2). exists M. split; [exact E|]. split; [exact q|]. split; [rewrite K2; apply slice_length; lia|exact K1].
  - intros vs vd vc. destruct (call_permute j m st vs vd vc R) as (M & E & q & K). exists M. split; [exact E|]. split; [exact (rel_well _ _ q)|exact K].
  - intros lanes d Hd Sd HL. assert (X : exists fuel st' d', absorb_blocks permute_24rounds (8 * lanes) fuel st d = Ok (st', d') /\ List.length d = 8 * lanes * (List.length d / (8 * lanes)) + List.length d').
    { assert (H8 : 8 * lanes <= 200 /\ 8 * lanes <> 0) by lia. clear R HL Sd Hd. generalize dependent (8 * lanes). intros rb (H1 & H2).
      assert (X : forall fuel st d, List.length st = 200 -> List.length d < rb * fuel -> exists st' d', absorb_blocks permute_24rounds rb fuel st d = Ok (st', d') /\ List.length d = rb * (List.length d / rb) + List.length d').
      { clear -H1 H2. induction fuel as [|fuel IH]; intros st d Ls L; [lia|]. cbn [absorb_blocks]. destruct (Nat.leb_spec rb (List.length d)) as [A|A].
        - assert (Ea : add_bytes st d 0 (N.of_nat rb) = Ok (xin st 0 (firstn rb d))).
          { unfold add_bytes. replace (N.of_nat 0 + N.of_nat rb <=? N.of_nat (List.length st))%N with true by (symmetry; apply N.leb_le; lia). replace (N.of_nat rb <=? N.of_nat (List.length d))%N with true by (symmetry; apply N.leb_le; lia). cbn [andb]. rewrite Nat2N.id. reflexivity. }
          rewrite Ea. cbn [bind]. destruct (IH (permute_24rounds (xin st 0 (firstn rb d))) (skipn rb d)) as (st' & d' & E & Q); [apply permute_length|rewrite skipn_length; lia|].
          exists st', d'. split; [exact E|]. rewrite skipn_length in Q. replace (List.length d) with ((List.length d - rb) + 1 * rb) at 2 by lia. rewrite Nat.div_add by exact H2. lia.
        - exists st, d. split; [reflexivity|]. rewrite Nat.div_small by exact A. lia. }
      exists (S (List.length d)). apply X; [exact Ls|]. nia. }
    destruct X as (fuel & st' & d' & A & Q). destruct (call_fast j fuel m st lanes d st' d' R Hd Sd HL A) as (M & p & E & q1 & q2 & q3 & q4 & K). exists (2660 * fuel + 100), M. split; [exact E|]. split; [exact (rel_well _ _ q1)|]. split; [|exact K].
    rewrite q2. do 2 f_equal. apply (f_equal (@List.length N)) in q3. rewrite skipn_length in q3. lia.
Qed.
