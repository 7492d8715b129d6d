(** The functions on four states of PlSnP-Fallback.inc *)
From Coq Require Import Arith NArith List Bool Lia.
From Verif Require Import Prelude SpongeModel SpongeFacts KeccakSpec KeccakModel KeccakFacts KeccakBytes SnpMem SnpLayout SnpSponge SnpSim SnpSim4 Opt64Model Opt64Facts Opt64More Opt64MoreFacts X86Model Simd256Model Simd256Facts StateSpec PutFacts Avx2Fast12 StateModel StateFacts FourSpec FourModel.
Import ListNotations.

Lemma over_each g (h : nat -> bytes -> bytes) sts : length sts = 4 -> Forall good sts -> Forall is_bytes sts -> (forall i st, i < 4 -> good st -> is_bytes st -> g i st = Ok (h i st) /\ good (h i st) /\ is_bytes (h i st)) ->
  opt4_over_states (concat sts) g = Ok (concat (each h sts)) /\ same4 (concat (each h sts)) (each h sts).
Proof.
  intros L F FB H. destruct (four_cases sts L) as (a & b & c & d & ->). inversion F as [|? ? Ga F1]; subst. inversion F1 as [|? ? Gb F2]; subst. inversion F2 as [|? ? Gc F3]; subst. inversion F3 as [|? ? Gd _]; subst.
  inversion FB as [|? ? Ba B1]; subst. inversion B1 as [|? ? Bb B2]; subst. inversion B2 as [|? ? Bc B3]; subst. inversion B3 as [|? ? Bd _]; subst.
  destruct (H 0 a ltac:(lia) Ga Ba) as (Ea & Ha & Ka), (H 1 b ltac:(lia) Gb Bb) as (Eb & Hb & Kb), (H 2 c ltac:(lia) Gc Bc) as (Ec & Hc & Kc), (H 3 d ltac:(lia) Gd Bd) as (Ed & Hd & Kd).
  unfold opt4_over_states, each. cbn [seq foldM length combine map fst snd]. split.
  - rewrite (with_state_ok [a; b; c; d] 0 (g 0) (h 0 a)); [|exact F|cbn; lia|exact Ea|exact Ha]. cbn [bind upd].
    rewrite (with_state_ok [h 0 a; b; c; d] 1 (g 1) (h 1 b)); [|repeat (constructor; try assumption)|cbn; lia|exact Eb|exact Hb]. cbn [bind upd].
    rewrite (with_state_ok [h 0 a; h 1 b; c; d] 2 (g 2) (h 2 c)); [|repeat (constructor; try assumption)|cbn; lia|exact Ec|exact Hc]. cbn [bind upd].
    rewrite (with_state_ok [h 0 a; h 1 b; h 2 c; d] 3 (g 3) (h 3 d)); [|repeat (constructor; try assumption)|cbn; lia|exact Ed|exact Hd]. reflexivity.
  - split; [reflexivity|]. split; [reflexivity|]. split; repeat (constructor; try assumption).
Qed.
Lemma each_map (f : bytes -> bytes) sts : length sts = 4 -> each (fun _ => f) sts = map f sts.
Proof. intros L. destruct (four_cases sts L) as (a & b & c & d & ->). reflexivity. Qed.
Lemma off_le (off i : nat) : i < 4 -> 8 * off * i <= 8 * off * 3.
Proof. intros H. apply Nat.mul_le_mono_l. lia. Qed.
Lemma same4_upd sts i st : same4 (concat sts) sts -> good st -> is_bytes st -> same4 (concat (upd sts i st)) (upd sts i st).
Proof. intros (_ & L & F & B) G K. split; [reflexivity|]. split; [rewrite upd_length; exact L|]. split; [apply good_upd; assumption|apply bytes_upd; assumption]. Qed.
Lemma put_second (a b c : bytes) k : put (a ++ b) (length a + k) c = a ++ put b k c.
Proof.
  unfold put. rewrite firstn_app, skipn_app. rewrite firstn_all2 by lia. rewrite (skipn_all2 a) by lia. replace (length a + k - length a) with k by lia. replace (length a + k + length c - length a) with (k + length c) by lia.
  rewrite <- app_assoc. reflexivity.
Qed.
Lemma slice_first (a b : bytes) k n : k + n <= length a -> slice (a ++ b) k n = slice a k n.
Proof. intros H. unfold slice. rewrite skipn_app, firstn_app. rewrite skipn_length. replace (n - (length a - k)) with 0 by lia. cbn [firstn]. apply app_nil_r. Qed.
Section Lanes.
Variables (sts : list bytes) (k off : nat).
Hypothesis HS : same4 (concat sts) sts.
Lemma ex_good i : i < 4 -> length (nth i sts []) = 200 /\ is_bytes (nth i sts []) /\ read (concat sts) (200 * i) 200 = Ok (nth i sts []).
Proof. intros Hi. destruct HS as (_ & L & F & B). rewrite <- L in Hi. split; [apply good_nth; assumption|]. split; [apply bytes_nth; assumption|apply read_state; assumption]. Qed.
Lemma spread4 (f : nat -> bytes -> bytes) n out : spread f n sts out = fold_left (fun out i => put out (n * i) (f i (nth i sts []))) (seq 0 4) out.
Proof. destruct HS as (_ & L & _ & _). destruct (four_cases sts L) as (a & b & c & d & E). rewrite E. reflexivity. Qed.
Lemma fold_ok {U} (g : U -> nat -> res U) (h : U -> nat -> U) (Inv : U -> Prop) l : (forall s i, List.In i l -> Inv s -> g s i = Ok (h s i) /\ Inv (h s i)) -> forall s, Inv s -> foldM g l s = Ok (fold_left h l s).
Proof.
  induction l as [|i l IH]; intros H s Hs; [reflexivity|]. cbn [foldM fold_left]. destruct (H s i (or_introl eq_refl) Hs) as [E I]. rewrite E. cbn [bind]. apply IH; [|exact I]. intros s' i' Hi. apply H. right. exact Hi.
Qed.
Lemma opt4_extract_all out : k < 25 -> 8 * off * 3 + 8 * k <= length out -> opt4_extract_lanes_all (concat sts) out k off = Ok (spread (fun i st => part st 0 (8 * k)) (8 * off) sts out).
Proof.
  intros Hk Ho. rewrite spread4. unfold opt4_extract_lanes_all. apply (fold_ok _ (fun out i => put out (8 * off * i) (part (nth i sts []) 0 (8 * k))) (fun o => length o = length out)); [|reflexivity].
  intros o i Hi Lo. assert (Hi' : i < 4) by (apply in_seq in Hi; lia). destruct (ex_good i Hi') as (L & B & E). pose proof (off_le off i Hi') as X. rewrite E. cbn [bind]. rewrite opt_extract_ok by (rewrite ?Nat2N.id; assumption || lia). cbn [bind]. rewrite Nat2N.id.
  replace (k * 8) with (8 * k) by lia. assert (LP : length (slice (nth i sts []) 0 (8 * k)) = 8 * k) by (apply slice_length; lia). change (part (nth i sts []) 0 (8 * k)) with (slice (nth i sts []) 0 (8 * k)). split; [apply write_at_ok; lia|]. rewrite put_length by lia. exact Lo.
Qed.
Lemma opt4_xadd_all input out : is_bytes input -> is_bytes out -> k < 25 -> 8 * off * 3 + 8 * k <= length input -> 8 * off * 3 + 8 * k <= length out ->
  opt4_xadd_lanes_all (concat sts) input out k off = Ok (spread (fun i st => xor_with (part input (8 * off * i) (8 * k)) (part st 0 (8 * k))) (8 * off) sts out).
Proof.
  intros Bi Bo Hk Hi Ho. rewrite spread4. unfold opt4_xadd_lanes_all.
  rewrite (fold_ok _ (fun mem i => put mem (length input + 8 * off * i) (xorl (slice mem (8 * off * i) (8 * k)) (slice (nth i sts []) 0 (8 * k)))) (fun mem => exists o, mem = input ++ o /\ is_bytes o /\ length o = length out)).
  - cbn [bind]. f_equal. assert (X : forall l o, Forall (fun i => i < 4) l -> fold_left (fun mem i => put mem (length input + 8 * off * i) (xorl (slice mem (8 * off * i) (8 * k)) (slice (nth i sts []) 0 (8 * k)))) l (input ++ o) =
      input ++ fold_left (fun out i => put out (8 * off * i) (xor_with (part input (8 * off * i) (8 * k)) (part (nth i sts []) 0 (8 * k)))) l o).
    { induction l as [|i l IH]; intros o Fl; [reflexivity|]. inversion_clear Fl as [|? ? H1 H2]. cbn [fold_left]. pose proof (off_le off i H1). rewrite slice_first by lia. rewrite put_second. rewrite IH by exact H2. rewrite xor_with_xorl. reflexivity. }
    rewrite X by (repeat (constructor; [lia|]); constructor). rewrite skipn_app, skipn_all, Nat.sub_diag. reflexivity.
  - intros mem i Hin (o & -> & Bo' & Lo). assert (Hi' : i < 4) by (apply in_seq in Hin; lia). destruct (ex_good i Hi') as (L & B & E). pose proof (off_le off i Hi') as X. rewrite E. cbn [bind].
    assert (LX : length (xorl (slice (input ++ o) (8 * off * i) (8 * k)) (slice (nth i sts []) 0 (8 * k))) = 8 * k) by (rewrite slice_first by lia; rewrite xorl_length, !slice_length by lia; lia).
    split; [rewrite opt_xadd_ok; [replace (k * 8) with (8 * k) by lia; reflexivity|exact B|apply Forall_app; split; assumption|exact L|lia|lia|rewrite app_length; lia|rewrite app_length; lia|lia]|].
    rewrite put_second. eexists. split; [reflexivity|]. rewrite put_length by lia. split; [|exact Lo]. apply put_bytes; [exact Bo'|]. apply is_bytes_xorl; [rewrite slice_first by lia|]; apply slice_bytes; assumption.
  - exists out. split; [reflexivity|]. split; [exact Bo|reflexivity].
Qed.
End Lanes.
(** extraction of all 200 bytes of a state at once is excluded, as for one state *)
Definition four_not_all (c : four_call) : Prop :=
  match c with OnState _ c => not_all c | ExtractLanesAll _ k _ | ExtractAndAddLanesAll _ _ k _ => k < 25 | _ => True end.
Lemma opt4_step_ok sts c : same4 (concat sts) sts -> four_ok c -> four_not_all c ->
  opt4_step (concat sts) c = Ok (concat (fst (four_step sts c)), snd (four_step sts c)) /\ same4 (concat (fst (four_step sts c))) (fst (four_step sts c)).
Proof.
  intros HS H NA. pose proof HS as (_ & L4 & F & B).
  destruct c as [i c|d k off|d k off|out k off|input out k off| | | |]; cbn [four_step opt4_step four_ok four_not_all fst snd] in *.
  - destruct H as (Hi & Hc & Hm). destruct (ex_good sts HS i Hi) as (Ls & Bs & Er). pose proof (opt64_step_ok (nth i sts []) c Bs Ls Hc NA) as E. destruct (state_step_good (nth i sts []) c Bs Ls Hc) as [Bn Ln].
    destruct c as [b o|d o len|d o len|n| | |nr|o len|mem p q o len|k d|k d]; try contradiction Hm; cbn [state_step opt64_step fst snd] in *; rewrite <- ?upd_split by lia.
    + destruct (opt_add_byte (nth i sts []) b o) eqn:E1; try discriminate E. injection E as ->. split; [|apply same4_upd; assumption]. unfold opt4_add_byte. rewrite (with_state_ok sts i _ _ F ltac:(lia) E1 Ln). reflexivity.
    + destruct (opt_add_bytes (nth i sts []) d o (N.of_nat len)) eqn:E1; try discriminate E. injection E as ->. split; [|apply same4_upd; assumption]. unfold opt4_add_bytes. rewrite (with_state_ok sts i (fun st => opt_add_bytes st d o (N.of_nat len)) _ F ltac:(lia) E1 Ln). reflexivity.
    + destruct (opt_overwrite (nth i sts []) d o len) eqn:E1; try discriminate E. injection E as ->. split; [|apply same4_upd; assumption]. rewrite (with_state_ok sts i (fun st => opt_overwrite st d o len) _ F ltac:(lia) E1 Ln). reflexivity.
    + destruct (opt_zeroes (nth i sts []) n) eqn:E1; try discriminate E. injection E as ->. split; [|apply same4_upd; assumption]. rewrite (with_state_ok sts i (fun st => opt_zeroes st n) _ F ltac:(lia) E1 Ln). reflexivity.
    + destruct (opt_extract (nth i sts []) o (N.of_nat len)) eqn:E1; try discriminate E. injection E as ->. assert (U : @upd bytes sts i (@nth bytes i sts []) = sts) by exact (upd_here sts i [] (eq_ind_r (fun n => i < n) Hi L4)). rewrite U. split; [|exact HS]. unfold opt4_extract. rewrite Er. cbn [bind]. exact (f_equal (fun r => do o <- r; Ok (concat sts, o)) E1).
    + destruct (opt_xadd (nth i sts []) mem p q o len) eqn:E1; try discriminate E. injection E as ->. assert (U : @upd bytes sts i (@nth bytes i sts []) = sts) by exact (upd_here sts i [] (eq_ind_r (fun n => i < n) Hi L4)). rewrite U. split; [|exact HS]. rewrite Er. cbn [bind]. exact (f_equal (fun r => do o <- r; Ok (concat sts, o)) E1).
  - destruct H as (Bd & Hk & Hd). edestruct (over_each (fun i st => opt_add_bytes st (skipn (8 * off * i) d) 0 (N.of_nat (k * 8))) (fun i st => put st 0 (xor_with (part st 0 (8 * k)) (part d (8 * off * i) (8 * k)))) sts L4 F B) as [E S].
    + intros i st Hi G Bs. unfold good in *. pose proof (off_le off i Hi). assert (LX : length (xor_with (part st 0 (8 * k)) (part d (8 * off * i) (8 * k))) = 8 * k) by (rewrite xor_with_length; rewrite (slice_length st 0 (8 * k) ltac:(lia) : length (part st 0 (8 * k)) = 8 * k); rewrite (slice_length d (8 * off * i) (8 * k) ltac:(lia) : length (part d (8 * off * i) (8 * k)) = 8 * k); apply Nat.min_id).
      split; [|split; [rewrite put_length by lia; exact G|apply put_bytes; [exact Bs|apply xor_with_bytes; apply slice_bytes; assumption]]].
      rewrite opt_add_bytes_ok; [|exact Bs|apply skipn_bytes; exact Bd|exact G|lia|rewrite skipn_length; lia]. f_equal. rewrite Nat2N.id. replace (k * 8) with (8 * k) by lia. change (firstn (8 * k) (skipn (8 * off * i) d)) with (part d (8 * off * i) (8 * k)).
      assert (LP : length (part d (8 * off * i) (8 * k)) = 8 * k) by (apply slice_length; lia). rewrite xin_put by lia. rewrite LP. reflexivity.
    + unfold opt4_add_lanes_all. rewrite E. split; [reflexivity|exact S].
  - destruct H as (Bd & Hk & Hd). edestruct (over_each (fun i st => opt_overwrite st (skipn (8 * off * i) d) 0 (k * 8)) (fun i st => put st 0 (part d (8 * off * i) (8 * k))) sts L4 F B) as [E S].
    + intros i st Hi G Bs. unfold good in *. pose proof (off_le off i Hi). assert (LP : length (part d (8 * off * i) (8 * k)) = 8 * k) by (apply slice_length; lia).
      split; [|split; [rewrite put_length by lia; exact G|apply put_bytes; [exact Bs|apply slice_bytes; assumption]]].
      rewrite opt_overwrite_ok; [|exact G|lia|rewrite skipn_length; lia]. replace (k * 8) with (8 * k) by lia. reflexivity.
    + unfold opt4_overwrite_lanes_all. rewrite E. split; [reflexivity|exact S].
  - destruct H as (_ & _ & _ & Ho). rewrite opt4_extract_all by assumption. split; [reflexivity|exact HS].
  - destruct H as (Bi & Bo & _ & _ & Hi & Ho). rewrite opt4_xadd_all by assumption. split; [reflexivity|exact HS].
  - assert (X : opt4_permute (concat sts) = opt4_over_states (concat sts) (fun _ => opt_permute)) by reflexivity. rewrite X. clear X.
    destruct (over_each (fun _ => opt_permute) (fun _ st => bytes_of (keccak_f (bits_of st))) sts L4 F B) as [E S]; [|rewrite each_map in E, S by exact L4; rewrite E; split; [reflexivity|exact S]].
    intros i st _ G Bs. unfold good in *. rewrite <- perm24_back by assumption. split; [apply opt_permute_ok; exact G|]. destruct (to_state_good (KeccakModel.rounds24 (copy_from_state st))) as [X1 X2]. split; [exact X2|exact X1].
  - destruct (over_each (fun _ => opt_permute12) (fun _ st => bytes_of (keccak_p 12 (bits_of st))) sts L4 F B) as [E S]; [|rewrite each_map in E, S by exact L4; rewrite E; split; [reflexivity|exact S]].
    intros i st _ G Bs. unfold good in *. rewrite <- perm_back by (assumption || lia). split; [apply opt_permute12_ok; exact G|]. destruct (permute_n_good 12 st) as [X1 X2]. split; [exact X2|exact X1].
  - destruct (over_each (fun _ st => opt_permuteN st 6) (fun _ st => bytes_of (keccak_p 6 (bits_of st))) sts L4 F B) as [E S]; [|rewrite each_map in E, S by exact L4; rewrite E; split; [reflexivity|exact S]].
    intros i st _ G Bs. unfold good in *. rewrite <- perm_back by (assumption || lia). split; [apply (opt_permuteN_ok st 6 G); lia|]. destruct (permute_n_good 6 st) as [X1 X2]. split; [exact X2|exact X1].
  - destruct (over_each (fun _ st => opt_permuteN st 4) (fun _ st => bytes_of (keccak_p 4 (bits_of st))) sts L4 F B) as [E S]; [|rewrite each_map in E, S by exact L4; rewrite E; split; [reflexivity|exact S]].
    intros i st _ G Bs. unfold good in *. rewrite <- perm_back by (assumption || lia). split; [apply (opt_permuteN_ok st 4 G); lia|]. destruct (permute_n_good 4 st) as [X1 X2]. split; [exact X2|exact X1].
Qed.
Lemma opt4_steps_ok : forall cs sts, same4 (concat sts) sts -> Forall four_ok cs -> Forall four_not_all cs -> opt4_steps (concat sts) cs = Ok (four_steps sts cs).
Proof.
  induction cs as [|c cs IH]; intros sts HS H N; [reflexivity|]. inversion_clear H as [|? ? H1 H2]. inversion_clear N as [|? ? N1 N2]. cbn [opt4_steps four_steps]. destruct (opt4_step_ok sts c HS H1 N1) as [E S]. rewrite E. cbn [bind].
  destruct (four_step sts c) as [sts' o]. cbn [fst snd] in *. rewrite IH by assumption. reflexivity.
Qed.
Theorem opt4_calls_ok m cs : length m = 800 -> Forall four_ok cs -> Forall four_not_all cs -> opt4_calls m cs = Ok (four_run cs).
Proof.
  intros L H N. destruct (cut4 m L) as (sts & -> & Ls & F). unfold opt4_calls, opt4_init. rewrite (over_all opt_init (fun _ => repeat 0%N 200) sts Ls F) by (intros st Hs; split; [apply opt_init_ok; exact Hs|apply repeat_length]). cbn [bind].
  destruct (four_cases sts Ls) as (a & b & c & d & ->). apply (opt4_steps_ok cs (repeat (repeat 0%N 200) 4)); [|exact H|exact N].
  split; [reflexivity|]. split; [reflexivity|]. split; apply Forall_forall; intros x Hx; apply repeat_spec in Hx; subst x; [apply repeat_length|apply zeros200].
Qed.
(** all 25 lanes *)
Lemma init4 m : length m = 800 -> opt4_init m = Ok (concat (repeat (repeat 0%N 200) 4)).
Proof.
  intros L. destruct (cut4 m L) as (sts & -> & Ls & F). unfold opt4_init. rewrite (over_all opt_init (fun _ => repeat 0%N 200) sts Ls F) by (intros st Hs; split; [apply opt_init_ok; exact Hs|apply repeat_length]).
  destruct (four_cases sts Ls) as (a & b & c & d & ->). reflexivity.
Qed.
Lemma four_all_lanes : forall m out off, length m = 800 -> is_bytes out -> 25 <= off -> 8 * off * 3 + 8 * 25 <= length out ->
  opt4_calls m [ExtractLanesAll out 25 off] = UB OutOfBounds /\ forall input, is_bytes input -> 8 * off * 3 + 8 * 25 <= length input -> opt4_calls m [ExtractAndAddLanesAll input out 25 off] = UB OutOfBounds.
Proof.
  intros m out off L Bo Ho Lo. unfold opt4_calls. rewrite init4 by exact L. cbn [bind].
  assert (S : same4 (concat (repeat (repeat 0%N 200) 4)) (repeat (repeat 0%N 200) 4)) by (split; [reflexivity|]; split; [reflexivity|]; split; apply Forall_forall; intros x Hx; apply repeat_spec in Hx; subst x; [apply repeat_length|apply zeros200]).
  assert (G : exists st, length st = 200 /\ is_bytes st /\ read (concat (repeat (repeat 0%N 200) 4)) (200 * 0) 200 = Ok st) by (eexists; exact (ex_good _ S 0 ltac:(lia))). clear S. destruct G as (st & L0 & B0 & E0). set (mem := concat (repeat (repeat 0%N 200) 4)) in *. clearbody mem.
  split.
  - destruct (all_at_once st out 0 0 L0 B0 Bo ltac:(lia) ltac:(lia) ltac:(lia)) as [U _]. cbn [opt4_steps opt4_step]. unfold opt4_extract_lanes_all. cbn [seq foldM]. rewrite E0. cbn [bind]. change (N.of_nat (25 * 8)) with 200%N. rewrite U. reflexivity.
  - intros input Bi Li. destruct (all_at_once st (input ++ out) 0 (length input) L0 B0 ltac:(apply Forall_app; split; assumption) ltac:(rewrite app_length; lia) ltac:(rewrite app_length; lia) ltac:(lia)) as [_ U].
    cbn [opt4_steps opt4_step]. unfold opt4_xadd_lanes_all. cbn [seq foldM]. rewrite E0. cbn [bind]. change (25 * 8) with 200. rewrite Nat.mul_0_r, Nat.add_0_r. rewrite U. reflexivity.
Qed.
