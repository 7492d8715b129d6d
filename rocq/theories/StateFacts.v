(** The calls on a state do what StateSpec says *)
From Coq Require Import Arith NArith ZArith String List Bool Lia.
From Verif Require Import Prelude SpongeModel SpongeFacts KeccakSpec KeccakModel KeccakFacts KeccakBytes SnpMem SnpLayout SnpSim Opt64Model Opt64Facts Opt64More Opt64MoreFacts.
From Verif Require Import X86Model Avx2Code Avx2Round Avx2Perm Avx2Mem Avx2Facts Avx2Calls Avx2Add Avx2Extract Avx2Model Avx2Sim StateSpec PutFacts Avx2Over Avx2Zero Avx2XAdd Avx2Rounds Avx2Fast Avx2Fast12 Avx2FastAny StateModel.
Import ListNotations.

Lemma xor_with_xorl a : forall b, xor_with a b = xorl a b.
Proof. unfold xor_with. induction a as [|x a IH]; intros [|y b]; cbn [combine map xorl fst snd]; try reflexivity. f_equal. apply IH. Qed.
Lemma xin_put st off d : off + List.length d <= List.length st -> xin st off d = put st off (xor_with (part st off (List.length d)) d).
Proof. intros H. rewrite xor_with_xorl. rewrite xin_split by exact H. unfold put. rewrite xorl_length. unfold part. rewrite firstn_length, skipn_length. replace (Nat.min (Nat.min (List.length d) (List.length st - off)) (List.length d)) with (List.length d) by lia. reflexivity. Qed.
Definition byte_id : forallb (fun i => N.eqb (byte_of (byte_bits (N.of_nat i))) (N.of_nat i)) (seq 0 256) = true := eq_refl.
Lemma byte_back b : is_byte b -> byte_of (byte_bits b) = b.
Proof. intros H. unfold is_byte in H. pose proof (proj1 (forallb_forall _ _) byte_id (N.to_nat b) ltac:(apply in_seq; lia)) as E. cbv beta in E. rewrite N2Nat.id in E. apply N.eqb_eq. exact E. Qed.
Lemma bytes_of_app b l : bytes_of (byte_bits b ++ l) = byte_of (byte_bits b) :: bytes_of l.
Proof.
  unfold bytes_of. rewrite app_length. change (List.length (byte_bits b)) with 8. replace (8 + List.length l) with (1 * 8 + List.length l) by lia. rewrite Nat.div_add_l by discriminate. cbn [Nat.add seq map]. f_equal.
  rewrite <- seq_shift, map_map. apply map_ext. intros i. f_equal. f_equal. replace (8 * S i) with (8 + 8 * i) by lia. reflexivity.
Qed.
Lemma bytes_back st : is_bytes st -> bytes_of (bits_of st) = st.
Proof. induction 1 as [|b st Hb H IH]; [reflexivity|]. change (bits_of (b :: st)) with (byte_bits b ++ bits_of st). rewrite bytes_of_app, byte_back by exact Hb. f_equal. exact IH. Qed.
Lemma to_state_good A : is_bytes (copy_to_state A) /\ List.length (copy_to_state A) = 200.
Proof. pose proof (rel_facts _ _ (rel_memory A)) as (_ & _ & L & B). split; assumption. Qed.
Lemma perm_back n st : n <= 24 -> is_bytes st -> List.length st = 200 -> permute_n n st = bytes_of (keccak_p n (bits_of st)).
Proof. intros Hn B L. rewrite <- permute_n_bits by assumption. rewrite bytes_back; [reflexivity|]. apply to_state_good. Qed.
Lemma perm24_back st : is_bytes st -> List.length st = 200 -> permute_24rounds st = bytes_of (keccak_f (bits_of st)).
Proof. intros B L. rewrite <- permute_bits by assumption. rewrite bytes_back; [reflexivity|]. apply to_state_good. Qed.

(** *** absorbing blocks *)
Lemma absorb_blocks_ext f g n : (forall st, is_bytes st -> List.length st = 200 -> f st = g st) -> (forall st, is_bytes (f st) /\ List.length (f st) = 200) -> 0 < n <= 200 ->
  forall fuel st d, List.length d / n < fuel -> is_bytes st -> List.length st = 200 -> is_bytes d -> absorb_blocks f n fuel st d = Ok (absorb g st n d, skipn (n * (List.length d / n)) d) /\ is_bytes (absorb g st n d) /\ List.length (absorb g st n d) = 200.
Proof.
  intros E G Hn. induction fuel as [|fuel IH]; intros st d Hf Bs Ls Bd; [lia|]. cbn [absorb_blocks]. destruct (Nat.leb_spec n (List.length d)) as [A|A].
  - assert (Q : List.length d / n = S (List.length (skipn n d) / n)).
    { rewrite skipn_length. replace (List.length d) with (1 * n + (List.length d - n)) at 1 by lia. rewrite Nat.div_add_l by lia. reflexivity. }
    unfold add_bytes. rewrite Ls, Nat2N.id. replace ((N.of_nat 0 + N.of_nat n <=? N.of_nat 200)%N && (N.of_nat n <=? N.of_nat (List.length d))%N) with true by (symmetry; apply andb_true_intro; split; apply N.leb_le; lia). cbn [bind].
    assert (Bx : is_bytes (xin st 0 (firstn n d))) by (apply xin_bytes; [exact Bs|apply firstn_bytes; exact Bd]). assert (Lx : List.length (xin st 0 (firstn n d)) = 200) by (rewrite xin_length; exact Ls).
    assert (X : absorb g st n d = absorb g (f (xin st 0 (firstn n d))) n (skipn n d)).
    { unfold absorb, blocks. rewrite Q. cbn [seq map fold_left]. rewrite Nat.mul_0_r. change (part d 0 n) with (firstn n d). rewrite E by assumption. rewrite (xin_put st 0 (firstn n d)) by (rewrite firstn_length; lia).
      rewrite firstn_length, Nat.min_l by exact A. f_equal. rewrite <- seq_shift, map_map. apply map_ext. intros i. unfold part. rewrite skip_more. f_equal. f_equal. lia. }
    destruct (IH (f (xin st 0 (firstn n d))) (skipn n d)) as (I1 & I2 & I3); [lia|apply G|apply G|apply skipn_bytes; exact Bd|]. rewrite I1, X. split; [|split; assumption]. rewrite skip_more. rewrite Q. replace (n * S (List.length (skipn n d) / n)) with (n + n * (List.length (skipn n d) / n)) by lia. reflexivity.
  - assert (Q : List.length d / n = 0) by (apply Nat.div_small; exact A). unfold absorb, blocks. rewrite Q, Nat.mul_0_r. cbn [seq map fold_left skipn]. repeat split; assumption.
Qed.
Local Notation perm24 := (fun st : bytes => bytes_of (keccak_f (bits_of st))).
Local Notation perm12 := (fun st : bytes => bytes_of (keccak_p 12 (bits_of st))).
Lemma absorb24 k fuel st d : List.length d / (8 * k) < fuel -> is_bytes st -> List.length st = 200 -> is_bytes d -> 1 <= k <= 25 ->
  absorb_blocks permute_24rounds (8 * k) fuel st d = Ok (absorb perm24 st (8 * k) d, skipn (8 * k * (List.length d / (8 * k))) d) /\ is_bytes (absorb perm24 st (8 * k) d) /\ List.length (absorb perm24 st (8 * k) d) = 200.
Proof. intros Hf Bs Ls Bd Hk. apply absorb_blocks_ext; try assumption; [exact perm24_back|intros; apply to_state_good|lia]. Qed.
Lemma absorb12 k fuel st d : List.length d / (8 * k) < fuel -> is_bytes st -> List.length st = 200 -> is_bytes d -> 1 <= k <= 25 ->
  absorb_blocks (permute_n 12) (8 * k) fuel st d = Ok (absorb perm12 st (8 * k) d, skipn (8 * k * (List.length d / (8 * k))) d) /\ is_bytes (absorb perm12 st (8 * k) d) /\ List.length (absorb perm12 st (8 * k) d) = 200.
Proof. intros Hf Bs Ls Bd Hk. apply absorb_blocks_ext; try assumption; [intros; apply perm_back; assumption || lia|intros; apply to_state_good|lia]. Qed.
Lemma opt_fast12_ok k (Hk : k <= 25) : forall fuel st d st' d', is_bytes st -> is_bytes d -> List.length st = 200 -> absorb_blocks (permute_n 12) (8 * k) fuel st d = Ok (st', d') ->
  opt_fast12_loop fuel (copy_from_state st) k d = Ok (copy_from_state st', d').
Proof.
  induction fuel as [|fuel IH]; intros st d st' d' Hs Hd Ls E; [discriminate|]. cbn [absorb_blocks opt_fast12_loop] in *. rewrite (Nat.mul_comm k 8).
  destruct (Nat.leb_spec (8 * k) (List.length d)) as [A|A]; [|inversion E; subst; reflexivity].
  apply bind_ok in E. destruct E as (st1 & E1 & E). apply add_bytes_inv in E1. destruct E1 as (_ & _ & ->). rewrite Nat2N.id in E.
  rewrite add_input_pairs by exact Hk. rewrite copy_list.
  pose proof (add_input_fold st d Hs Hd Ls k 0 k eq_refl Hk A) as X. change (8 * 0) with 0 in X. rewrite firstn_O, xin_nil in X. rewrite X. cbn [bind]. clear X. rewrite <- copy_from_list.
  assert (B1 : is_bytes (xin st 0 (firstn (8 * k) d))) by (apply xin_bytes; [exact Hs|apply firstn_bytes; exact Hd]).
  rewrite rounds12_eq. rewrite rounds_n_copy by (rewrite ?xin_length; assumption || lia).
  apply IH; [apply permute_n_good|apply skipn_bytes; exact Hd|apply permute_n_good|exact E].
Qed.
Lemma left_over (d : bytes) n : List.length d - List.length (skipn (n * (List.length d / n)) d) = n * (List.length d / n).
Proof. rewrite skipn_length. destruct n as [|n]; [cbn [Nat.mul]; lia|]. pose proof (Nat.mul_div_le (List.length d) (S n) ltac:(discriminate)). lia. Qed.

(** *** opt64 *)
(** KeccakP1600_ExtractBytes and KeccakP1600_ExtractAndAddBytes with offset 0 and length 200 read a lane 25 *)
Definition not_all (c : state_call) : Prop :=
  match c with ExtractBytes off len | ExtractAndAddBytes _ _ _ off len => off = 0 -> len < 200 | _ => True end.
Lemma part_slice st off n : part st off n = slice st off n.
Proof. reflexivity. Qed.
Lemma opt64_step_ok st c : is_bytes st -> List.length st = 200 -> call_ok c -> not_all c -> opt64_step st c = Ok (state_step st c).
Proof.
  intros B L H NA. destruct c as [b off|d off len|d off len|n| | |nr|off len|mem p q off len|k d|k d]; cbn [opt64_step state_step call_ok not_all] in *.
  - destruct H as [Hb Ho]. unfold opt_add_byte. rewrite xor8_xin by lia. cbn [bind]. rewrite xin_put by (cbn [List.length]; lia). reflexivity.
  - destruct H as (Bd & Hl & Ho). rewrite opt_add_bytes_ok by (assumption || lia). cbn [bind]. rewrite Nat2N.id. rewrite xin_put by (rewrite firstn_length; lia). rewrite firstn_length. replace (Nat.min len (List.length d)) with len by lia. reflexivity.
  - destruct H as (Bd & Hl & Ho). rewrite opt_overwrite_ok by assumption. reflexivity.
  - rewrite opt_zeroes_ok by assumption. reflexivity.
  - rewrite opt_permute_ok by assumption. cbn [bind]. rewrite perm24_back by assumption. reflexivity.
  - rewrite opt_permute12_ok by assumption. cbn [bind]. rewrite perm_back by (assumption || lia). reflexivity.
  - rewrite opt_permuteN_ok by (assumption || lia). cbn [bind]. rewrite perm_back by (assumption || lia). reflexivity.
  - rewrite opt_extract_ok by (rewrite ?Nat2N.id; assumption). cbn [bind]. rewrite Nat2N.id. reflexivity.
  - destruct H as (Bm & Ho & Hp & Hq & Hs). rewrite opt_xadd_ok by assumption. cbn [bind]. rewrite xor_with_xorl. reflexivity.
  - destruct H as (Bd & Hk & _). destruct (absorb24 k (S (List.length d / (8 * k))) st d ltac:(lia) B L Bd Hk) as (E & B' & L'). destruct (opt_fast_ok k ltac:(lia) _ _ _ _ _ B Bd L E) as (F & _). unfold opt_fast. rewrite L, Nat.eqb_refl, F. cbn [bind].
    rewrite to_from by assumption. rewrite left_over. reflexivity.
  - destruct H as (Bd & Hk & _). destruct (absorb12 k (S (List.length d / (8 * k))) st d ltac:(lia) B L Bd Hk) as (E & B' & L'). pose proof (opt_fast12_ok k ltac:(lia) _ _ _ _ _ B Bd L E) as F. unfold opt_fast12. rewrite L, Nat.eqb_refl, F. cbn [bind].
    rewrite to_from by assumption. rewrite left_over. reflexivity.
Qed.
Lemma xor_with_bytes a b : is_bytes a -> is_bytes b -> is_bytes (xor_with a b).
Proof. rewrite xor_with_xorl. apply is_bytes_xorl. Qed.
Lemma xor_with_length a b : List.length (xor_with a b) = Nat.min (List.length a) (List.length b).
Proof. rewrite xor_with_xorl. apply xorl_length. Qed.
Lemma state_step_good st c : is_bytes st -> List.length st = 200 -> call_ok c -> is_bytes (fst (state_step st c)) /\ List.length (fst (state_step st c)) = 200.
Proof.
  intros B L H. destruct c as [b off|d off len|d off len|n| | |nr|off len|mem p q off len|k d|k d]; cbn [state_step call_ok fst] in *.
  - destruct H as [Hb Ho]. rewrite put_length by (rewrite xor_with_length; cbn [List.length]; lia). split; [|exact L]. apply put_bytes; [exact B|]. apply xor_with_bytes; [apply slice_bytes; exact B|apply one_byte; exact Hb].
  - destruct H as (Bd & Hl & Ho). rewrite put_length by (rewrite xor_with_length, firstn_length; lia). split; [|exact L]. apply put_bytes; [exact B|]. apply xor_with_bytes; [apply slice_bytes; exact B|apply firstn_bytes; exact Bd].
  - destruct H as (Bd & Hl & Ho). rewrite put_length by (rewrite firstn_length; lia). split; [|exact L]. apply put_bytes; [exact B|apply firstn_bytes; exact Bd].
  - rewrite put_length by (rewrite repeat_length; lia). split; [|exact L]. apply put_bytes; [exact B|apply zeros_bytes].
  - rewrite <- perm24_back by assumption. apply to_state_good.
  - rewrite <- perm_back by (assumption || lia). apply to_state_good.
  - rewrite <- perm_back by (assumption || lia). apply to_state_good.
  - split; assumption.
  - split; assumption.
  - destruct H as (Bd & Hk & _). exact (proj2 (absorb24 k (S (List.length d / (8 * k))) st d ltac:(lia) B L Bd Hk)).
  - destruct H as (Bd & Hk & _). exact (proj2 (absorb12 k (S (List.length d / (8 * k))) st d ltac:(lia) B L Bd Hk)).
Qed.
Lemma opt64_steps_ok : forall cs st, is_bytes st -> List.length st = 200 -> Forall call_ok cs -> Forall not_all cs -> opt64_steps st cs = Ok (state_steps st cs).
Proof.
  induction cs as [|c cs IH]; intros st B L H N; [reflexivity|]. inversion_clear H as [|? ? H1 H2]. inversion_clear N as [|? ? N1 N2]. cbn [opt64_steps state_steps]. rewrite opt64_step_ok by assumption. cbn [bind].
  pose proof (state_step_good st c B L H1) as [B' L']. destruct (state_step st c) as [st' o]. cbn [fst] in *. rewrite IH by assumption. reflexivity.
Qed.
Theorem opt64_calls_ok m cs : List.length m = 200 -> Forall call_ok cs -> Forall not_all cs -> opt64_calls m cs = Ok (state_run cs).
Proof. intros L H N. unfold opt64_calls, state_run. rewrite opt_init_ok by exact L. cbn [bind]. apply opt64_steps_ok; [apply zeros_bytes|apply repeat_length|exact H|exact N]. Qed.

(** *** AVX2 *)
Lemma call_overwrite j m st d off len hi : rel m st -> is_bytes d -> off + len <= 200 -> len <= List.length d ->
  exists M, call code constants 500 "KeccakP1600_OverwriteBytes" (regs j (Vp Bda 0) (Vi (N.of_nat off + 2 ^ 32 * hi)) (Vi (N.of_nat len))) (ymm j) m d = Ok M /\ rel (mst M) (put st off (firstn len d)) /\ kept j d M.
Proof.
  intros R Hd Ho Hl. apply (leads_ret 450 "KeccakP1600_OverwriteBytes" 500 _ _ _ _ 69 117 (fun M => rel (mst M) (put st off (firstn len d)) /\ kept j d M) ltac:(vm_compute; reflexivity) ltac:(vm_compute; reflexivity) ltac:(clear; lia)).
  eapply leads_conseq; [apply (overwrite_leads m st); assumption|]. cbv beta. intros M (G' & y' & c' & z' & m' & -> & GB & R'). eexists _, _, _, _, _, _. split; [reflexivity|]. split; [exact R'|]. split; [exact GB|reflexivity].
Qed.
Lemma call_zeroes j m st vd vc n d : rel m st -> n <= 200 ->
  exists M, call code constants 350 "KeccakP1600_OverwriteWithZeroes" (regs j (Vi (N.of_nat n)) vd vc) (ymm j) m d = Ok M /\ rel (mst M) (put st 0 (repeat 0%N n)) /\ kept j d M.
Proof.
  intros R Hn. apply (leads_ret 300 "KeccakP1600_OverwriteWithZeroes" 350 _ _ _ _ 118 142 (fun M => rel (mst M) (put st 0 (repeat 0%N n)) /\ kept j d M) ltac:(vm_compute; reflexivity) ltac:(vm_compute; reflexivity) ltac:(clear; lia)).
  eapply leads_conseq; [apply (zeroes_leads m st); assumption|]. cbv beta. intros M (G' & y' & c' & z' & m' & -> & GB & R'). eexists _, _, _, _, _, _. split; [reflexivity|]. split; [exact R'|]. split; [exact GB|reflexivity].
Qed.
Lemma call_permute12 j m st vs vd vc d : rel m st ->
  exists M, call code constants 2800 "KeccakP1600_Permute_12rounds" (regs j vs vd vc) (ymm j) m d = Ok M /\ rel (mst M) (permute_n 12 st) /\ kept j d M.
Proof.
  intros R. apply (leads_ret 2700 "KeccakP1600_Permute_12rounds" 2800 _ _ _ _ 390 413 (fun M => rel (mst M) (permute_n 12 st) /\ kept j d M) ltac:(vm_compute; reflexivity) ltac:(vm_compute; reflexivity) ltac:(clear; lia)).
  eapply leads_conseq; [apply (permute12_leads m st); [exact R|apply ymm_len]|]. cbv beta. intros M (G' & y' & c' & z' & m' & -> & GB & _ & R'). eexists _, _, _, _, _, _. split; [reflexivity|]. split; [exact R'|]. split; [exact GB|reflexivity].
Qed.
Lemma call_permuteN n j m st vd vc d : 0 < n <= 24 -> rel m st ->
  exists M, call code constants 2800 "KeccakP1600_Permute_Nrounds" (regs j (Vi (N.of_nat n)) vd vc) (ymm j) m d = Ok M /\ rel (mst M) (permute_n n st) /\ kept j d M.
Proof.
  intros Hn R. apply (leads_ret 2700 "KeccakP1600_Permute_Nrounds" 2800 _ _ _ _ 414 439 (fun M => rel (mst M) (permute_n n st) /\ kept j d M) ltac:(vm_compute; reflexivity) ltac:(vm_compute; reflexivity) ltac:(clear; lia)).
  eapply leads_conseq; [apply (permuteN_leads n m st); [exact Hn|exact R|apply ymm_len]|]. cbv beta. intros M (G' & y' & c' & z' & m' & -> & GB & R'). eexists _, _, _, _, _, _. split; [reflexivity|]. split; [exact R'|]. split; [exact GB|reflexivity].
Qed.
Lemma call_xadd j m st d off len hi p q : rel m st -> is_bytes d -> off + len <= 200 -> p + len <= List.length d -> q + len <= List.length d -> q <= p \/ p + len <= q ->
  exists M, call code constants 750 "KeccakP1600_ExtractAndAddBytes" (mkG (Vi (j_rax j)) (Vi (j_rbx j)) (Vi (N.of_nat off + 2 ^ 32 * hi)) (Vp Bda (Z.of_nat q)) (Vp Bda (Z.of_nat p)) (Vp Bst 0) (Vi (N.of_nat len)) (Vi (j_r9 j)) (Vi (j_r10 j))) (ymm j) m d = Ok M /\
    mst M = m /\ kept j (put d q (xorl (slice st off len) (slice d p len))) M.
Proof.
  intros R Hd Ho Hp Hq Hs. apply (leads_ret 700 "KeccakP1600_ExtractAndAddBytes" 750 _ _ _ _ 195 254 (fun M => mst M = m /\ kept j (put d q (xorl (slice st off len) (slice d p len))) M) ltac:(vm_compute; reflexivity) ltac:(vm_compute; reflexivity) ltac:(clear; lia)).
  eapply leads_conseq; [apply (xadd_leads m st); assumption|]. cbv beta. intros M (G' & y' & c' & z' & -> & GB). eexists _, _, _, _, _, _. split; [reflexivity|]. split; [reflexivity|]. split; [exact GB|reflexivity].
Qed.
Lemma call_absorb24 j fuel m st k d : rel m st -> is_bytes d -> (N.of_nat (List.length d) < 2 ^ 63)%N -> 1 <= k <= 25 -> List.length d / (8 * k) < fuel ->
  exists M, call code constants (3000 * fuel + 100) "KeccakF1600_FastLoop_Absorb" (regs j (Vi (N.of_nat k)) (Vp Bda 0) (Vi (N.of_nat (List.length d)))) (ymm j) m d = Ok M /\
    rel (mst M) (absorb perm24 st (8 * k) d) /\ rax (gp M) = Vi (N.of_nat (8 * k * (List.length d / (8 * k)))) /\ kept j d M.
Proof.
  intros R Hd Sd Hk Hf. pose proof (rel_facts m st R) as (_ & _ & L & B). destruct (absorb24 k fuel st d Hf B L Hd Hk) as (E & _).
  apply (leads_ret (3000 * fuel + 60) "KeccakF1600_FastLoop_Absorb" (3000 * fuel + 100) (regs j (Vi (N.of_nat k)) (Vp Bda 0) (Vi (N.of_nat (List.length d)))) (ymm j) m d 440 510
      (fun M => rel (mst M) (absorb perm24 st (8 * k) d) /\ rax (gp M) = Vi (N.of_nat (8 * k * (List.length d / (8 * k)))) /\ kept j d M) ltac:(vm_compute; reflexivity) ltac:(vm_compute; reflexivity) ltac:(clear; lia)).
  eapply leads_conseq; [apply (fast_any24 k fuel m st d (absorb perm24 st (8 * k) d) (skipn (8 * k * (List.length d / (8 * k))) d)); [exact Hk|exact R|exact Hd|exact E|apply ymm_len|exact Sd]|]. cbv beta. intros M (p & G' & y' & c' & z' & m' & -> & R' & X1 & GB & X2 & X3). eexists _, _, _, _, _, _. split; [reflexivity|].
  split; [exact R'|]. split; [|split; [exact GB|reflexivity]]. etransitivity; [exact X1|]. f_equal. f_equal. pose proof (f_equal (@List.length N) X2) as X4. rewrite !skipn_length in X4. pose proof (Nat.mul_div_le (List.length d) (8 * k) ltac:(lia)). lia.
Qed.
Lemma call_absorb12 j fuel m st k d : rel m st -> is_bytes d -> (N.of_nat (List.length d) < 2 ^ 63)%N -> 1 <= k <= 25 -> List.length d / (8 * k) < fuel ->
  exists M, call code constants (3000 * fuel + 100) "KeccakP1600_12rounds_FastLoop_Absorb" (regs j (Vi (N.of_nat k)) (Vp Bda 0) (Vi (N.of_nat (List.length d)))) (ymm j) m d = Ok M /\
    rel (mst M) (absorb perm12 st (8 * k) d) /\ rax (gp M) = Vi (N.of_nat (8 * k * (List.length d / (8 * k)))) /\ kept j d M.
Proof.
  intros R Hd Sd Hk Hf. pose proof (rel_facts m st R) as (_ & _ & L & B). destruct (absorb12 k fuel st d Hf B L Hd Hk) as (E & _).
  apply (leads_ret (3000 * fuel + 60) "KeccakP1600_12rounds_FastLoop_Absorb" (3000 * fuel + 100) (regs j (Vi (N.of_nat k)) (Vp Bda 0) (Vi (N.of_nat (List.length d)))) (ymm j) m d 587 657
      (fun M => rel (mst M) (absorb perm12 st (8 * k) d) /\ rax (gp M) = Vi (N.of_nat (8 * k * (List.length d / (8 * k)))) /\ kept j d M) ltac:(vm_compute; reflexivity) ltac:(vm_compute; reflexivity) ltac:(clear; lia)).
  eapply leads_conseq; [apply (fast_any12 k fuel m st d (absorb perm12 st (8 * k) d) (skipn (8 * k * (List.length d / (8 * k))) d)); [exact Hk|exact R|exact Hd|exact E|apply ymm_len|exact Sd]|]. cbv beta. intros M (p & G' & y' & c' & z' & m' & -> & R' & X1 & GB & X2 & X3). eexists _, _, _, _, _, _. split; [reflexivity|].
  split; [exact R'|]. split; [|split; [exact GB|reflexivity]]. etransitivity; [exact X1|]. f_equal. f_equal. pose proof (f_equal (@List.length N) X2) as X4. rewrite !skipn_length in X4. pose proof (Nat.mul_div_le (List.length d) (8 * k) ltac:(lia)). lia.
Qed.
Lemma avx2_step_ok J m st c : rel m st -> call_ok c -> exists m', avx2_step J m c = Ok (m', snd (state_step st c)) /\ rel m' (fst (state_step st c)).
Proof.
  intros R H. pose proof (rel_facts m st R) as (Lm & Bm & L & B). destruct c as [b off|d off len|d off len|n| | |nr|off len|mem p q off len|k d|k d]; cbn [avx2_step state_step call_ok fst snd] in *.
  - destruct H as [Hb Ho]. unfold asm_add_byte. cbv zeta. destruct (call_add_byte (J m) m st (Vi (j_rcx (J m))) b (j_byte (J m)) off (j_half (J m)) R Hb Ho) as (M & E & Q & _). rewrite E. cbn [bind]. exists (mst M). split; [reflexivity|]. rewrite xin_put in Q by (cbn [List.length]; lia). exact Q.
  - destruct H as (Bd & Hl & Ho). unfold asm_add_bytes. cbv zeta. destruct (call_add_bytes (J m) m st d off len (j_half (J m)) R Bd Ho Hl) as (M & E & Q & _). rewrite E. cbn [bind]. exists (mst M). split; [reflexivity|].
    rewrite xin_put in Q by (rewrite firstn_length; lia). rewrite firstn_length in Q. replace (Nat.min len (List.length d)) with len in Q by lia. exact Q.
  - destruct H as (Bd & Hl & Ho). unfold asm_overwrite. cbv zeta. destruct (call_overwrite (J m) m st d off len (j_half (J m)) R Bd Ho Hl) as (M & E & Q & _). rewrite E. cbn [bind]. exists (mst M). split; [reflexivity|exact Q].
  - unfold asm_zeroes. cbv zeta. destruct (call_zeroes (J m) m st (Vi (j_rdx (J m))) (Vi (j_rcx (J m))) n [] R H) as (M & E & Q & _). rewrite E. cbn [bind]. exists (mst M). split; [reflexivity|exact Q].
  - unfold asm_permute. cbv zeta. destruct (call_permute (J m) m st (Vi (j_rsi (J m))) (Vi (j_rdx (J m))) (Vi (j_rcx (J m))) R) as (M & E & Q & _). rewrite E. cbn [bind]. exists (mst M). split; [reflexivity|]. rewrite <- perm24_back by assumption. exact Q.
  - unfold asm_permute12. cbv zeta. destruct (call_permute12 (J m) m st (Vi (j_rsi (J m))) (Vi (j_rdx (J m))) (Vi (j_rcx (J m))) [] R) as (M & E & Q & _). rewrite E. cbn [bind]. exists (mst M). split; [reflexivity|]. rewrite <- perm_back by (assumption || lia). exact Q.
  - unfold asm_permuteN. cbv zeta. destruct (call_permuteN nr (J m) m st (Vi (j_rdx (J m))) (Vi (j_rcx (J m))) [] ltac:(lia) R) as (M & E & Q & _). rewrite E. cbn [bind]. exists (mst M). split; [reflexivity|]. rewrite <- perm_back by (assumption || lia). exact Q.
  - unfold asm_extract. cbv zeta. destruct (call_extract (J m) m st (map (j_buf (J m)) (seq 0 len)) off len (j_half (J m)) R H) as (M & E & _ & _ & Q); [rewrite map_length; apply seq_length|]. rewrite Nat2N.id, E. cbn [bind]. rewrite Q. exists m. split; [reflexivity|exact R].
  - destruct H as (Bd & Ho & Hp & Hq & Hs). unfold asm_xadd. cbv zeta. destruct (call_xadd (J m) m st mem off len (j_half (J m)) p q R Bd Ho Hp Hq Hs) as (M & E & E1 & _ & E2). rewrite E. cbn [bind]. rewrite E1, E2. exists m. rewrite xor_with_xorl, xorl_comm. split; [reflexivity|exact R].
  - destruct H as (Bd & Hk & Sd). unfold asm_absorb. cbv zeta. destruct (call_absorb24 (J m) (S (List.length d / (8 * k))) m st k d R Bd Sd Hk ltac:(lia)) as (M & E & R' & EA & _). rewrite E. cbn [bind]. rewrite EA. exists (mst M). split; [reflexivity|exact R'].
  - destruct H as (Bd & Hk & Sd). unfold asm_absorb. cbv zeta. destruct (call_absorb12 (J m) (S (List.length d / (8 * k))) m st k d R Bd Sd Hk ltac:(lia)) as (M & E & R' & EA & _). rewrite E. cbn [bind]. rewrite EA. exists (mst M). split; [reflexivity|exact R'].
Qed.
Lemma avx2_steps_ok J : forall cs m st, rel m st -> Forall call_ok cs -> avx2_steps J m cs = Ok (state_steps st cs).
Proof.
  induction cs as [|c cs IH]; intros m st R H; [reflexivity|]. inversion_clear H as [|? ? H1 H2]. cbn [avx2_steps state_steps]. destruct (avx2_step_ok J m st c R H1) as (m' & E & R'). rewrite E. cbn [bind].
  destruct (state_step st c) as [st' o]. cbn [fst snd] in *. rewrite (IH m' st' R' H2). reflexivity.
Qed.
Theorem avx2_calls_ok J m cs : List.length m = 200 -> Forall call_ok cs -> avx2_calls J m cs = Ok (state_run cs).
Proof.
  intros L H. unfold avx2_calls, asm_init. cbv zeta. destruct (call_init (J m) m (Vi (j_rsi (J m))) (Vi (j_rdx (J m))) (Vi (j_rcx (J m))) L) as (M & E & Q & _). rewrite E. cbn [bind]. rewrite Q.
  apply avx2_steps_ok; [exact rel_zeros|exact H].
Qed.
Lemma put_first (m d : bytes) k : k <= List.length m -> firstn k (put m k d) = firstn k m.
Proof. intros H. unfold put. rewrite firstn_app, firstn_firstn, firstn_length, Nat.min_id. replace (k - Nat.min k (List.length m)) with 0 by lia. rewrite firstn_O, app_nil_r. reflexivity. Qed.
Lemma put_last (m d : bytes) k n : List.length d = n -> k + n <= List.length m -> skipn (k + n) (put m k d) = skipn (k + n) m.
Proof. intros <- H. unfold put. rewrite app_assoc, skipn_app, skipn_all2 by (rewrite app_length, firstn_length; lia). rewrite app_length, firstn_length. replace (k + List.length d - (Nat.min k (List.length m) + List.length d)) with 0 by lia. reflexivity. Qed.
Lemma more_calls_safe : forall j m, List.length m = 200 /\ is_bytes m ->
  (forall d off len hi, is_bytes d -> off + len <= 200 -> len <= List.length d ->
    exists M, call code constants 500 "KeccakP1600_OverwriteBytes" (regs j (Vp Bda 0) (Vi (N.of_nat off + 2 ^ 32 * hi)) (Vi (N.of_nat len))) (ymm j) m d = Ok M /\
    List.length (mst M) = 200 /\ rbx (gp M) = Vi (j_rbx j) /\ mda M = d) /\
  (forall vd vc n d, n <= 200 -> exists M, call code constants 350 "KeccakP1600_OverwriteWithZeroes" (regs j (Vi (N.of_nat n)) vd vc) (ymm j) m d = Ok M /\
    List.length (mst M) = 200 /\ rbx (gp M) = Vi (j_rbx j) /\ mda M = d) /\
  (forall vs vd vc d, exists M, call code constants 2800 "KeccakP1600_Permute_12rounds" (regs j vs vd vc) (ymm j) m d = Ok M /\
    List.length (mst M) = 200 /\ rbx (gp M) = Vi (j_rbx j) /\ mda M = d) /\
  (forall n vd vc d, 0 < n <= 24 -> exists M, call code constants 2800 "KeccakP1600_Permute_Nrounds" (regs j (Vi (N.of_nat n)) vd vc) (ymm j) m d = Ok M /\
    List.length (mst M) = 200 /\ rbx (gp M) = Vi (j_rbx j) /\ mda M = d) /\
  (forall k d, is_bytes d -> (N.of_nat (List.length d) < 2 ^ 63)%N -> 1 <= k <= 25 ->
    exists fuel M, call code constants fuel "KeccakF1600_FastLoop_Absorb" (regs j (Vi (N.of_nat k)) (Vp Bda 0) (Vi (N.of_nat (List.length d)))) (ymm j) m d = Ok M /\
    List.length (mst M) = 200 /\ rbx (gp M) = Vi (j_rbx j) /\ mda M = d) /\
  (forall k d, is_bytes d -> (N.of_nat (List.length d) < 2 ^ 63)%N -> 1 <= k <= 25 ->
    exists fuel M, call code constants fuel "KeccakP1600_12rounds_FastLoop_Absorb" (regs j (Vi (N.of_nat k)) (Vp Bda 0) (Vi (N.of_nat (List.length d)))) (ymm j) m d = Ok M /\
    List.length (mst M) = 200 /\ rbx (gp M) = Vi (j_rbx j) /\ mda M = d) /\
  (forall d off len hi p q, is_bytes d -> off + len <= 200 -> p + len <= List.length d -> q + len <= List.length d -> q <= p \/ p + len <= q ->
    exists M, call code constants 750 "KeccakP1600_ExtractAndAddBytes" (mkG (Vi (j_rax j)) (Vi (j_rbx j)) (Vi (N.of_nat off + 2 ^ 32 * hi)) (Vp Bda (Z.of_nat q)) (Vp Bda (Z.of_nat p)) (Vp Bst 0) (Vi (N.of_nat len)) (Vi (j_r9 j)) (Vi (j_r10 j))) (ymm j) m d = Ok M /\
    mst M = m /\ rbx (gp M) = Vi (j_rbx j) /\ List.length (mda M) = List.length d /\ firstn q (mda M) = firstn q d /\ skipn (q + len) (mda M) = skipn (q + len) d).
Proof.
  intros j m [L B]. destruct (some_state m L B) as [st R]. repeat apply conj.
  - intros d off len hi Hd Ho Hl. destruct (call_overwrite j m st d off len hi R Hd Ho Hl) as (M & E & R' & K1 & K2). apply rel_facts in R'. exists M. repeat split; try assumption; apply R'.
  - intros vd vc n d Hn. destruct (call_zeroes j m st vd vc n d R Hn) as (M & E & R' & K1 & K2). apply rel_facts in R'. exists M. repeat split; try assumption; apply R'.
  - intros vs vd vc d. destruct (call_permute12 j m st vs vd vc d R) as (M & E & R' & K1 & K2). apply rel_facts in R'. exists M. repeat split; try assumption; apply R'.
  - intros n vd vc d Hn. destruct (call_permuteN n j m st vd vc d Hn R) as (M & E & R' & K1 & K2). apply rel_facts in R'. exists M. repeat split; try assumption; apply R'.
  - intros k d Hd Sd Hk. destruct (call_absorb24 j (S (List.length d / (8 * k))) m st k d R Hd Sd Hk ltac:(lia)) as (M & E & R' & _ & K1 & K2). apply rel_facts in R'. exists (3000 * S (List.length d / (8 * k)) + 100), M. split; [exact E|]. split; [apply R'|]. split; assumption.
  - intros k d Hd Sd Hk. destruct (call_absorb12 j (S (List.length d / (8 * k))) m st k d R Hd Sd Hk ltac:(lia)) as (M & E & R' & _ & K1 & K2). apply rel_facts in R'. exists (3000 * S (List.length d / (8 * k)) + 100), M. split; [exact E|]. split; [apply R'|]. split; assumption.
  - intros d off len hi p q Hd Ho Hp Hq Hs. destruct (call_xadd j m st d off len hi p q R Hd Ho Hp Hq Hs) as (M & E & E1 & K1 & K2). pose proof (rel_facts m st R) as (_ & _ & Ls & _).
    assert (LX : List.length (xorl (slice st off len) (slice d p len)) = len) by (rewrite xorl_length, !slice_length by lia; lia).
    exists M. rewrite K2. repeat split; try assumption; [apply put_length; lia|apply put_first; lia|apply put_last; [exact LX|lia]].
Qed.
Definition plain_junk (m : bytes) : junk := mkJunk 1 2 3 4 5 6 7 8 (fun k => V4 9 10 11 12) 13 14 (fun i => 15%N).
Lemma no_rounds : (forall m, List.length m = 200 -> is_bytes m -> opt_permuteN m 0 = Ok m) /\
  exists J m, List.length m = 200 /\ is_bytes m /\ asm_permuteN J 4900 m 0 = UB OutOfBounds.
Proof.
  split.
  - intros m L B. etransitivity; [apply (opt_permuteN_ok m 0); assumption || lia|]. f_equal. apply to_from; assumption.
  - exists plain_junk, (repeat 0%N 200). split; [reflexivity|]. split; [apply zeros_bytes|]. vm_compute. reflexivity.
Qed.
Lemma many_rounds :
  (forall m n, List.length m = 200 -> is_bytes m -> (24 < n < 2 ^ 32)%N -> opt_permuteN m n = if N.odd n then UB OutOfBounds else Ok m) /\
  exists J m m', List.length m = 200 /\ is_bytes m /\ asm_permuteN J 2900 m 26 = Ok m' /\ m' <> m.
Proof.
  split; [intros m n L B; apply opt_permuteN_more; assumption|].
  assert (X : match asm_permuteN plain_junk 2900 (repeat 0%N 200) 26 with Ok m' => negb (N.eqb (nth 0 m' 0%N) 0) | _ => false end = true) by (vm_compute; reflexivity).
  destruct (asm_permuteN plain_junk 2900 (repeat 0%N 200) 26) as [m'| | |] eqn:E; try discriminate X. exists plain_junk, (repeat 0%N 200), m'. split; [reflexivity|]. split; [apply zeros_bytes|]. split; [exact E|]. intros ->. discriminate X.
Qed.
Lemma load_past (m : bytes) : List.length m = 200 -> load64 m 25 = UB OutOfBounds.
Proof. intros L. unfold load64, read. rewrite L. reflexivity. Qed.
Lemma all_at_once : forall m mem p q, List.length m = 200 -> is_bytes m -> is_bytes mem -> p + 200 <= List.length mem -> q + 200 <= List.length mem -> q <= p \/ p + 200 <= q ->
  opt_extract m 0 200 = UB OutOfBounds /\ opt_xadd m mem p q 0 200 = UB OutOfBounds.
Proof.
  intros m mem p q L B Bm Hp Hq Hs. split.
  - unfold opt_extract. cbv zeta. change (N.to_nat 200) with 200. change (200 / 8) with 25. cbn [Nat.eqb]. unfold extract_lanes. rewrite read_ok by lia. cbn [bind]. unfold extract_bytes_in_lane. rewrite load_past by exact L. reflexivity.
  - unfold opt_xadd. change (200 / 8) with 25. cbn [Nat.eqb]. unfold xadd_lanes. pose proof (xadd_lanes_ok p q mem m B Bm 25 0 [] ltac:(lia) eq_refl ltac:(cbn [List.length]; lia) ltac:(cbn [List.length]; lia) ltac:(cbn [List.length]; lia)) as X.
    rewrite put_nil in X. rewrite X. cbn [bind]. unfold xadd_in_lane. rewrite load_past by exact L. reflexivity.
Qed.
Lemma overlap : exists J m mem off len, List.length m = 200 /\ is_bytes m /\ is_bytes mem /\ off + len <= 200 /\ 1 + len <= List.length mem /\
  snd (state_step m (ExtractAndAddBytes mem 0 1 off len)) <> mem /\
  (forall o, opt_xadd m mem 0 1 off len = Ok o -> o <> snd (state_step m (ExtractAndAddBytes mem 0 1 off len))) /\
  (forall m' o, asm_xadd J m mem 0 1 off len = Ok (m', o) -> o <> snd (state_step m (ExtractAndAddBytes mem 0 1 off len))).
Proof.
  exists plain_junk, (repeat 0%N 200), [1; 2; 3]%N, 8, 2. split; [reflexivity|]. split; [apply zeros_bytes|]. split; [repeat constructor|]. split; [lia|]. split; [cbn [List.length]; lia|].
  split; [discriminate|]. split.
  - intros o E. vm_compute in E. injection E as <-. vm_compute. discriminate.
  - intros m' o E. vm_compute in E. injection E as <- <-. vm_compute. discriminate.
Qed.
Lemma zero_lanes : (forall fuel m d, List.length m = 200 -> opt_fast fuel m 0 d = OutOfFuel /\ opt_fast12 fuel m 0 d = OutOfFuel) /\
  exists J m d, List.length m = 200 /\ is_bytes m /\ is_bytes d /\ asm_absorb J "KeccakF1600_FastLoop_Absorb" 1 m 0 d = UB OutOfBounds /\ asm_absorb J "KeccakP1600_12rounds_FastLoop_Absorb" 1 m 0 d = UB OutOfBounds.
Proof.
  split.
  - intros fuel m d L. unfold opt_fast, opt_fast12. rewrite L. cbn [Nat.eqb].
    assert (X : forall fuel A d, opt_fast_loop fuel A 0 d = OutOfFuel) by (induction fuel0 as [|fuel0 IH]; intros A d0; [reflexivity|]; cbn [opt_fast_loop Nat.mul Nat.leb]; change (add_input 0) with (@nil (nat * nat)); cbn [foldM bind]; apply IH).
    assert (Y : forall fuel A d, opt_fast12_loop fuel A 0 d = OutOfFuel) by (induction fuel0 as [|fuel0 IH]; intros A d0; [reflexivity|]; cbn [opt_fast12_loop Nat.mul Nat.leb]; change (add_input 0) with (@nil (nat * nat)); cbn [foldM bind]; apply IH).
    rewrite X, Y. split; reflexivity.
  - exists plain_junk, (repeat 0%N 200), (repeat 7%N 16). split; [reflexivity|]. split; [apply zeros_bytes|]. split; [repeat constructor|]. split; vm_compute; reflexivity.
Qed.
