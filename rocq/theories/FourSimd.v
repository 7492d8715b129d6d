(** The functions on four states of KeccakP-1600-times4-SIMD256.c *)
From Coq Require Import Arith NArith List Bool Lia.
From Verif Require Import Prelude SpongeModel SpongeFacts KeccakSpec KeccakModel KeccakFacts KeccakBytes SnpMem SnpLayout SnpSponge SnpSim SnpSim4 Opt64Model Opt64Facts Opt64More Opt64MoreFacts X86Model Simd256Model Simd256Round Simd256Facts StateSpec PutFacts Avx2Fast12 StateModel StateFacts FourSpec FourModel FourLay FourAll FourPerm.
Import ListNotations.

Lemma lay_states m (sts : list bytes) i : lay4 m sts -> i < 4 -> length (nth i sts []) = 200 /\ is_bytes (nth i sts []).
Proof. intros (_ & _ & _ & Bs & _). apply Bs. Qed.
Lemma lay_four m (sts : list bytes) : lay4 m sts -> length sts = 4.
Proof. intros (_ & _ & L & _). exact L. Qed.
Lemma map_states (f g : bytes -> bytes) m (sts : list bytes) : lay4 m sts -> (forall st, is_bytes st -> length st = 200 -> f st = g st) -> map f sts = map g sts.
Proof.
  intros H E. pose proof (lay_four _ _ H) as L. apply (@map_ext_in bytes bytes). intros st Hst. apply (@In_nth bytes _ _ []) in Hst. destruct Hst as (i & Hi & <-). rewrite L in Hi. destruct (lay_states m sts i H Hi). apply E; assumption.
Qed.
Lemma spread_put4 (f : nat -> bytes -> bytes) sts out off : length sts = 4 -> spread f (8 * off) sts out = put4 off out (fun i => f i (nth i sts [])).
Proof. intros L. destruct (four_cases sts L) as (a & b & c & d & ->). reflexivity. Qed.
Lemma simd_step_ok P m (sts : list bytes) c : aligned P -> lay4 m sts -> four_ok c ->
  exists m', simd_step P m c = Ok (m', snd (four_step sts c)) /\ lay4 m' (fst (four_step sts c)).
Proof.
  intros HP HL H. pose proof (lay_four _ _ HL) as L4.
  assert (Q : forall (r : res bytes) sts', (exists m', r = Ok m' /\ lay4 m' sts') -> exists m', (do m' <- r; Ok (m', [])) = Ok (m', @nil N) /\ lay4 m' sts') by (intros r sts' (m' & -> & Hm'); exists m'; split; [reflexivity|exact Hm']).
  destruct c as [i c|d k off|d k off|out k off|input out k off| | | |]; cbn [four_step simd_step four_ok fst snd] in *.
  - destruct H as (Hi & Hc & Hm). destruct (lay_states m sts i HL Hi) as [Ls Bs].
    destruct c as [b o|d o len|d o len|n| | |nr|o len|mem p q o len|k d|k d]; try contradiction Hm; cbn [state_step call_ok fst snd] in *; rewrite <- ?upd_split by lia.
    + destruct Hc as [Hb Ho]. apply Q. destruct (sim4_add_byte _ _ _ _ (simd256_simulates P HP) m sts i b o (xin (nth i sts []) o [b]) HL Hi Hb) as (m' & E & Hm').
      * unfold add_byte. rewrite Ls. replace (o <? 200) with true by (symmetry; apply Nat.ltb_lt; exact Ho). reflexivity.
      * exists m'. split; [exact E|]. rewrite xin_put in Hm' by (cbn [length]; lia). exact Hm'.
    + destruct Hc as (Bd & Hl & Ho). apply Q. destruct (add_bytes1_ok m sts i d o (N.of_nat len) HL Hi ltac:(lia) ltac:(lia) Bd) as (m' & E & Hm'). exists m'. split; [exact E|]. rewrite Nat2N.id in Hm'. rewrite xin_put in Hm' by (rewrite firstn_length; lia). rewrite firstn_length in Hm'. replace (Nat.min len (length d)) with len in Hm' by lia. exact Hm'.
    + destruct Hc as (Bd & Hl & Ho). apply Q. apply over_bytes1_ok; assumption.
    + apply Q. apply zeroes1_ok; assumption.
    + rewrite (extract_bytes1_ok m sts i o (N.of_nat len) HL Hi) by lia. cbn [bind]. rewrite Nat2N.id. exists m. split; [reflexivity|]. assert (U : @upd bytes sts i (@nth bytes i sts []) = sts) by exact (upd_here sts i [] (eq_ind_r (fun n => i < n) Hi L4)). rewrite U. exact HL.
    + destruct Hc as (Bm & Ho & Hp & Hq & Hs). rewrite (xadd_bytes1_ok m sts i mem p q o len HL Hi) by assumption. cbn [bind]. rewrite xor_with_xorl. exists m. split; [reflexivity|]. assert (U : @upd bytes sts i (@nth bytes i sts []) = sts) by exact (upd_here sts i [] (eq_ind_r (fun n => i < n) Hi L4)). rewrite U. exact HL.
  - destruct H as (Bd & Hk & Hd). apply Q. rewrite each_nth by exact L4. destruct (add_all_ok P HP d k off sts Bd Hk Hd L4 (fun i Hi => lay_states m sts i HL Hi) m HL) as (m' & E & Hm'). exists m'. split; [exact E|]. unfold added in Hm'. erewrite map_ext; [exact Hm'|]. intros i. cbv beta. rewrite xor_with_xorl. reflexivity.
  - destruct H as (Bd & Hk & Hd). apply Q. rewrite each_nth by exact L4. destruct (over_all_ok P HP d k off sts Bd Hk Hd L4 (fun i Hi => lay_states m sts i HL Hi) m HL) as (m' & E & Hm'). exists m'. split; [exact E|]. exact Hm'.
  - destruct H as (Bo & Hk & Hko & Ho). rewrite (extract_all_ok P HP m k off sts out HL Hk Hko Ho). cbn [bind]. exists m. split; [|exact HL]. rewrite spread_put4 by exact L4. reflexivity.
  - destruct H as (Bi & Bo & Hk & Hko & Hi & Ho). rewrite (xadd_all_ok P HP m k off sts out HL Hk Hko Ho input Bi Hi). cbn [bind]. exists m. split; [|exact HL]. rewrite spread_put4 by exact L4. unfold exta, put4. rewrite !xor_with_xorl. reflexivity.
  - apply Q. destruct (permute_all_ok P m sts HP HL) as (m' & E & Hm'). exists m'. split; [exact E|]. rewrite (map_states _ permute_24rounds m sts HL); [exact Hm'|]. intros st B L. symmetry. apply perm24_back; assumption.
  - apply Q. destruct (permute_all_by_ok P vrounds12 12 m sts four12 HP HL) as (m' & E & Hm'). exists m'. split; [exact E|]. rewrite (map_states _ (permute_n 12) m sts HL); [exact Hm'|]. intros st B L. symmetry. apply perm_back; assumption || lia.
  - apply Q. destruct (permute_all_by_ok P vrounds6 6 m sts four6 HP HL) as (m' & E & Hm'). exists m'. split; [exact E|]. rewrite (map_states _ (permute_n 6) m sts HL); [exact Hm'|]. intros st B L. symmetry. apply perm_back; assumption || lia.
  - apply Q. destruct (permute_all_by_ok P vrounds4 4 m sts four4 HP HL) as (m' & E & Hm'). exists m'. split; [exact E|]. rewrite (map_states _ (permute_n 4) m sts HL); [exact Hm'|]. intros st B L. symmetry. apply perm_back; assumption || lia.
Qed.
Lemma simd_steps_ok P : aligned P -> forall cs m sts, lay4 m sts -> Forall four_ok cs -> simd_steps P m cs = Ok (four_steps sts cs).
Proof.
  intros HP. induction cs as [|c cs IH]; intros m sts HL H; [reflexivity|]. inversion_clear H as [|? ? H1 H2]. cbn [simd_steps four_steps]. destruct (simd_step_ok P m sts c HP HL H1) as (m' & E & HL'). rewrite E. cbn [bind].
  destruct (four_step sts c) as [sts' o]. cbn [fst snd] in *. rewrite (IH m' sts' HL' H2). reflexivity.
Qed.
Theorem simd_calls_ok P m cs : aligned P -> length m = 800 -> Forall four_ok cs -> simd_calls P m cs = Ok (four_run cs).
Proof.
  intros HP L H. destruct (sim4_init _ _ _ _ (simd256_simulates P HP) m L) as (m' & E & HL). unfold simd_calls. cbn [simd256 pl_init] in E. rewrite E. cbn [bind]. apply simd_steps_ok; assumption.
Qed.
