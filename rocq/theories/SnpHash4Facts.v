(** The four-way hash library over its two implementations *)
From Coq Require Import Arith NArith List Bool Lia.
From Verif Require KeccakSpec.
From Verif Require Import Prelude SpongeModel SpongeApi KeccakModel KeccakHash Sponge4Facts BitHashSpec BitHashModel BitHashFacts BitHashApi BitHashRuns BitHashFips SnpSponge SnpSim SnpSim4 Opt64Model Opt64Facts.
From Verif Require Import StateModel StateFacts HashImplSpec SnpHash4 SnpHashSim SnpHash4Sim SnpHashFacts Simd256Model Simd256Facts.
Import ListNotations.
Local Open Scope nat_scope.

Lemma simd256_any4 P : aligned P -> simulates4_any (simd256 P) lay4 permute_24rounds 200.
Proof.
  intros A. constructor; [exact (simd256_simulates P A)|]. cbn [simd256 pl_extract].
  intros m sts i off len o H Hi _ E. apply extract_inv in E. destruct E as (H1 & ->). pose proof H as (_ & _ & _ & Bs & _). destruct (Bs i Hi) as [L1 _]. apply extract_bytes1_ok; try assumption. lia.
Qed.
Lemma opt64x4_any4 : simulates4_any opt64x4 same4 permute_24rounds 199.
Proof.
  constructor; [exact opt64x4_simulates|]. intros m sts i off len o H Hi H0 E. apply (sim4_extract _ _ _ _ opt64x4_simulates m sts); try assumption. intros Z. specialize (H0 Z). lia.
Qed.

(** four scalar runs that succeed make one four-way run *)
Lemma four_runs rate capacity hashbitlen suffix cs (L : nat -> list (status * bytes)) : Forall even4 cs ->
  (forall i, i < 4 -> exists k, kb_init rate capacity hashbitlen suffix = Some k /\ exists fuel0, forall fuel, fuel0 <= fuel -> kb_calls permute_24rounds fuel k (map (lane i) cs) = Ok (L i)) ->
  exists k4, kb_init4 rate capacity hashbitlen suffix = Some k4 /\ exists fuel0, forall fuel, fuel0 <= fuel -> exists l,
    kb_calls4 permute_24rounds fuel k4 cs = Ok l /\ forall i, i < 4 -> map (fun r => (fst r, nth i (snd r) [])) l = L i.
Proof.
  intros EV R. destruct (kb_init4 rate capacity hashbitlen suffix) as [k4|] eqn:E4.
  2: { exfalso. destruct (R 0 ltac:(lia)) as (k & E & _). destruct (init4_lanes rate capacity hashbitlen suffix 0 ltac:(lia)) as [E' _]. rewrite E4 in E'. cbn [option_map] in E'. rewrite E in E'. discriminate E'. }
  exists k4. split; [reflexivity|].
  assert (R' : forall i, i < 4 -> exists fuel0, forall fuel, fuel0 <= fuel -> rmap (map (lane_r i)) (kb_calls4 permute_24rounds fuel k4 cs) = Ok (L i)).
  { intros i Hi. destruct (R i Hi) as (k & E & fuel0 & H). exists fuel0. intros fuel Hf. destruct (init4_lanes rate capacity hashbitlen suffix i Hi) as [E' O]. rewrite E4 in E'. cbn [option_map] in E'. rewrite E in E'. injection E' as ->.
    rewrite <- (calls4_lanes permute_24rounds permute_keeps fuel i Hi cs k4 (O _ E4) EV). exact (H fuel Hf). }
  destruct (R' 0 ltac:(lia)) as (f0 & R0). destruct (R' 1 ltac:(lia)) as (f1 & R1). destruct (R' 2 ltac:(lia)) as (f2 & R2). destruct (R' 3 ltac:(lia)) as (f3 & R3).
  exists (f0 + f1 + f2 + f3). intros fuel F. specialize (R0 fuel ltac:(lia)). specialize (R1 fuel ltac:(lia)). specialize (R2 fuel ltac:(lia)). specialize (R3 fuel ltac:(lia)).
  destruct (kb_calls4 permute_24rounds fuel k4 cs) as [l| | |]; cbn [rmap] in *; try discriminate. exists l. split; [reflexivity|]. intros i Hi. unfold lane_r in *.
  destruct i as [|[|[|[|i]]]]; [injection R0 as X|injection R1 as X|injection R2 as X|injection R3 as X|lia]; exact X.
Qed.
Lemma lanes_app i ups cs : map (lane i) (map update4 ups ++ cs) = map update (lane_data i ups) ++ map (lane i) cs.
Proof. rewrite map_app. f_equal. unfold lane_data. rewrite !map_map. reflexivity. Qed.
Lemma lanes_whole i ups : Forall (fun u => even4 (update4 u)) ups -> Forall whole_bytes (lane_data i ups).
Proof. intros H. apply Forall_map. eapply Forall_impl; [|exact H]. intros u X. exact (proj2 X). Qed.
Lemma lanes_fit i ups : i < 4 -> Forall (fun u => forall i, i < 4 -> fits (nth i (fst u) [], snd u)) ups -> Forall fits (lane_data i ups).
Proof. intros Hi H. apply Forall_map. eapply Forall_impl; [|exact H]. intros u X. exact (X i Hi). Qed.
Lemma but_last {A} (P : A -> Prop) l : Forall P l -> Forall P (removelast l).
Proof. induction l as [|x l IH]; intros H; [constructor|]. inversion H; subst. destruct l; [constructor|]. change (removelast (x :: a :: l)) with (x :: removelast (a :: l)). constructor; auto. Qed.
Lemma even_bytes c : even4 c -> (forall i, i < 4 -> machine_call (lane i c)) -> bytes_call4 c.
Proof.
  destruct c as [ds n| |n]; cbn [even4 lane machine_call bytes_call4]; auto. intros [[L _] _] H. split; [exact L|]. apply Forall_forall. intros d Hd. destruct (In_nth ds d [] Hd) as (i & Hi & <-).
  rewrite L in Hi. exact (proj1 (H i Hi)).
Qed.
Lemma ups_bytes ups : Forall (fun u => even4 (update4 u)) ups -> Forall (fun u => forall i, i < 4 -> fits (nth i (fst u) [], snd u)) ups -> Forall bytes_call4 (map update4 ups).
Proof.
  intros E F. apply Forall_map. rewrite Forall_forall in *. intros u Hu. apply even_bytes; [exact (E u Hu)|]. intros i Hi. pose proof (F u Hu i Hi) as X.
  pose proof (fits_machine [(nth i (fst u) [], snd u)] (Forall_cons _ X (Forall_nil _))) as Y. inversion Y; subst. assumption.
Qed.
Lemma calls_bytes cs : Forall even4 cs -> (forall i, i < 4 -> Forall machine_call (map (lane i) cs)) -> Forall bytes_call4 cs.
Proof.
  intros E H. rewrite Forall_forall in *. intros c Hc. apply even_bytes; [exact (E c Hc)|]. intros i Hi. specialize (H i Hi). rewrite Forall_forall in H. apply H. apply in_map. exact Hc.
Qed.

Lemma message_run4 rate capacity hashbitlen suffix ups cs : (capacity < 2 ^ 32)%N -> (suffix < 256)%N -> sound rate capacity suffix -> (hashbitlen / 8 + 200 <= 2 ^ 32)%N ->
  Forall (fun u => even4 (update4 u)) ups -> Forall (fun u => forall i, i < 4 -> fits (nth i (fst u) [], snd u)) ups -> Forall even4 cs -> (forall i, i < 4 -> Forall modest (map (lane i) cs)) ->
  exists g : nat -> nat -> N, (forall i, i < 4 -> is_sponge (N.to_nat rate) (message (lane_data i ups) ++ suffix_bits suffix) (g i)) /\
  exists k4, kb_init4 rate capacity hashbitlen suffix = Some k4 /\ exists fuel0, forall fuel, fuel0 <= fuel -> exists l,
    kb_calls4 permute_24rounds fuel k4 (map update4 ups ++ Final4 :: cs) = Ok l /\ forall i, i < 4 ->
      map (fun r => (fst r, nth i (snd r) [])) l =
      map (fun _ => (Success, [])) ups ++ (Success, outputs (g i) 0 (N.to_nat (hashbitlen / 8))) :: answers (g i) (N.to_nat (hashbitlen / 8)) (map (lane i) cs).
Proof.
  intros Hc Hs S Hh EV FT EC MO. exists (fun i => keccak_byte permute_24rounds (N.to_nat (rate / 8)) (message (lane_data i ups) ++ suffix_bits suffix)). split; [intros i _; apply (stream_ok _ _ _ _ S)|].
  apply four_runs; [apply Forall_app; split; [apply Forall_map; exact EV|constructor; [exact Logic.I|exact EC]]|].
  intros i Hi. destruct (message_run_any permute_24rounds permute_keeps rate capacity hashbitlen suffix (lane_data i ups) (map (lane i) cs) Hc Hs S Hh (lanes_fit i ups Hi FT) (but_last _ _ (lanes_whole i ups EV)) (MO i Hi)) as (k & Ek & fuel0 & H).
  exists k. split; [exact Ek|]. exists fuel0. intros fuel Hf. specialize (H fuel Hf). cbv zeta in H. rewrite lanes_app. cbn [map lane]. refine (eq_trans H _). unfold lane_data at 1. rewrite map_map. reflexivity.
Qed.
Lemma early_run4 rate capacity hashbitlen suffix ups q cs : (capacity < 2 ^ 32)%N -> (suffix < 256)%N -> sound rate capacity suffix ->
  Forall (fun u => even4 (update4 u)) ups -> Forall (fun u => forall i, i < 4 -> fits (nth i (fst u) [], snd u)) ups -> Forall even4 cs -> (forall i, i < 4 -> Forall modest (map (lane i) (Squeeze4 q :: cs))) -> (q mod 8 = 0)%N ->
  exists g : nat -> nat -> N, (forall i, i < 4 -> is_sponge (N.to_nat rate) (message (lane_data i ups)) (g i)) /\
  exists k4, kb_init4 rate capacity hashbitlen suffix = Some k4 /\ exists fuel0, forall fuel, fuel0 <= fuel -> exists l,
    kb_calls4 permute_24rounds fuel k4 (map update4 ups ++ Squeeze4 q :: cs) = Ok l /\ forall i, i < 4 ->
      map (fun r => (fst r, nth i (snd r) [])) l = map (fun _ => (Success, [])) ups ++ answers (g i) 0 (map (lane i) (Squeeze4 q :: cs)).
Proof.
  intros Hc Hs S EV FT EC MO Hq. exists (fun i => keccak_byte permute_24rounds (N.to_nat (rate / 8)) (message (lane_data i ups))). split; [intros i _; apply (stream_ok _ _ _ _ S)|].
  apply four_runs; [apply Forall_app; split; [apply Forall_map; exact EV|constructor; [exact Logic.I|exact EC]]|].
  intros i Hi. destruct (early_run permute_24rounds permute_keeps rate capacity hashbitlen suffix (lane_data i ups) q (map (lane i) cs) Hc Hs S (lanes_fit i ups Hi FT) (lanes_whole i ups EV) (MO i Hi) Hq) as (k & Ek & fuel0 & H).
  exists k. split; [exact Ek|]. exists fuel0. intros fuel Hf. specialize (H fuel Hf). cbv zeta in H. rewrite lanes_app. cbn [map lane]. refine (eq_trans H _). unfold lane_data at 1. rewrite map_map. reflexivity.
Qed.

Section Any.
Variables (Q : plsnp) (R : bytes -> list bytes -> Prop) (B : nat).
Hypothesis ANY : simulates4_any Q R permute_24rounds B.
Hypothesis HB : B <= 200.
Lemma any4_message m rate capacity hashbitlen suffix ups cs : length m = 800 -> (rate / 8 <= N.of_nat B)%N ->
  (capacity < 2 ^ 32)%N -> (suffix < 256)%N -> sound rate capacity suffix -> (hashbitlen / 8 + 200 <= 2 ^ 32)%N ->
  Forall (fun u => even4 (update4 u)) ups -> Forall (fun u => forall i, i < 4 -> fits (nth i (fst u) [], snd u)) ups -> Forall even4 cs ->
  (forall i, i < 4 -> Forall modest (map (lane i) cs) /\ Forall machine_call (map (lane i) cs)) ->
  exists g : nat -> nat -> N, (forall i, i < 4 -> is_sponge (N.to_nat rate) (message (lane_data i ups) ++ suffix_bits suffix) (g i)) /\
  exists fuel0, forall fuel, fuel0 <= fuel -> exists l,
    hash4_session Q fuel m rate capacity hashbitlen suffix (map update4 ups ++ Final4 :: cs) = Ok (Some l) /\ forall i, i < 4 ->
      map (fun r => (fst r, nth i (snd r) [])) l =
      map (fun _ => (Success, [])) ups ++ (Success, outputs (g i) 0 (N.to_nat (hashbitlen / 8))) :: answers (g i) (N.to_nat (hashbitlen / 8)) (map (lane i) cs).
Proof.
  intros Hm Hr Hc Hs S Hh EV FT EC MO. destruct (message_run4 rate capacity hashbitlen suffix ups cs Hc Hs S Hh EV FT EC (fun i Hi => proj1 (MO i Hi))) as (g & Hg & k4 & Ek & fuel0 & H).
  exists g. split; [exact Hg|]. exists fuel0. intros fuel Hf. destruct (H fuel Hf) as (l & E & HL). exists l. split; [|exact HL].
  apply (any4_session Q R permute_24rounds B ANY HB fuel m rate capacity hashbitlen suffix k4); try assumption.
  apply Forall_app. split; [apply ups_bytes; assumption|]. constructor; [exact Logic.I|apply calls_bytes; [exact EC|exact (fun i Hi => proj2 (MO i Hi))]].
Qed.
Lemma any4_early m rate capacity hashbitlen suffix ups q cs : length m = 800 -> (rate / 8 <= N.of_nat B)%N ->
  (capacity < 2 ^ 32)%N -> (suffix < 256)%N -> sound rate capacity suffix ->
  Forall (fun u => even4 (update4 u)) ups -> Forall (fun u => forall i, i < 4 -> fits (nth i (fst u) [], snd u)) ups -> Forall even4 cs ->
  (forall i, i < 4 -> Forall modest (map (lane i) (Squeeze4 q :: cs)) /\ Forall machine_call (map (lane i) cs)) -> (q mod 8 = 0)%N ->
  exists g : nat -> nat -> N, (forall i, i < 4 -> is_sponge (N.to_nat rate) (message (lane_data i ups)) (g i)) /\
  exists fuel0, forall fuel, fuel0 <= fuel -> exists l,
    hash4_session Q fuel m rate capacity hashbitlen suffix (map update4 ups ++ Squeeze4 q :: cs) = Ok (Some l) /\ forall i, i < 4 ->
      map (fun r => (fst r, nth i (snd r) [])) l = map (fun _ => (Success, [])) ups ++ answers (g i) 0 (map (lane i) (Squeeze4 q :: cs)).
Proof.
  intros Hm Hr Hc Hs S EV FT EC MO Hq. destruct (early_run4 rate capacity hashbitlen suffix ups q cs Hc Hs S EV FT EC (fun i Hi => proj1 (MO i Hi)) Hq) as (g & Hg & k4 & Ek & fuel0 & H).
  exists g. split; [exact Hg|]. exists fuel0. intros fuel Hf. destruct (H fuel Hf) as (l & E & HL). exists l. split; [|exact HL].
  apply (any4_session Q R permute_24rounds B ANY HB fuel m rate capacity hashbitlen suffix k4); try assumption.
  apply Forall_app. split; [apply ups_bytes; assumption|]. constructor; [exact Logic.I|apply calls_bytes; [exact EC|exact (fun i Hi => proj2 (MO i Hi))]].
Qed.
Lemma any4_fips202 (HB' : 168 <= B) m a ups q : length m = 800 -> Forall (fun u => even4 (update4 u)) ups ->
  Forall (fun u => forall i, i < 4 -> fits (nth i (fst u) [], snd u)) ups -> (q mod 8 = 0)%N -> (q / 8 + 200 <= 2 ^ 32)%N ->
  exists fuel0, forall fuel, fuel0 <= fuel -> exists l, macro4_session Q fuel m a (map update4 ups ++ [Final4; Squeeze4 q]) = Ok (Some l) /\
    forall i, i < 4 -> exists digest more,
      map (fun r => (fst r, nth i (snd r) [])) l = map (fun _ => (Success, [])) ups ++ [(Success, digest); (Success, more)] /\
      KeccakSpec.bits_of digest = fips202 a (message (lane_data i ups)) (digest_of a) /\
      KeccakSpec.bits_of (digest ++ more) = fips202 a (message (lane_data i ups)) (digest_of a + N.to_nat q).
Proof.
  intros Hm EV FT Hq Ho. destruct (sha3_run4 a ups q EV FT Hq Ho) as (k & Ek & fuel0 & H). exists fuel0. intros fuel Hf. destruct (H fuel Hf) as (l & E & HL). exists l. split; [|exact HL].
  assert (M : Forall bytes_call4 (map update4 ups ++ [Final4; Squeeze4 q])) by (apply Forall_app; split; [apply ups_bytes; assumption|repeat constructor]).
  destruct a; cbn [init4_macro macro4_session] in *; (eapply (any4_session Q R permute_24rounds B ANY HB); [exact Hm| |reflexivity|exact M|exact Ek|exact E]); apply N.leb_le; match goal with |- N.leb ?x _ = true => let v := eval vm_compute in x in change x with v end; apply N.leb_le; lia.
Qed.
End Any.
Lemma any4_refused Q m rate capacity hashbitlen suffix fuel cs : (capacity < 2 ^ 32)%N -> ~ sound rate capacity suffix -> hash4_session Q fuel m rate capacity hashbitlen suffix cs = Ok None.
Proof. intros Hc S. apply none4_session. apply init_fails; assumption. Qed.
(** with either implementation the same answers *)
Lemma sessions4_same P m m' rate capacity hashbitlen suffix ups cs : aligned P -> length m = 800 -> length m' = 800 -> (rate < 1600)%N ->
  (capacity < 2 ^ 32)%N -> (suffix < 256)%N -> sound rate capacity suffix -> (hashbitlen / 8 + 200 <= 2 ^ 32)%N ->
  Forall (fun u => even4 (update4 u)) ups -> Forall (fun u => forall i, i < 4 -> fits (nth i (fst u) [], snd u)) ups -> Forall even4 cs ->
  (forall i, i < 4 -> Forall modest (map (lane i) cs) /\ Forall machine_call (map (lane i) cs)) ->
  exists fuel0, forall fuel, fuel0 <= fuel -> exists l,
    hash4_session (simd256 P) fuel m rate capacity hashbitlen suffix (map update4 ups ++ Final4 :: cs) = Ok (Some l) /\
    hash4_session opt64x4 fuel m' rate capacity hashbitlen suffix (map update4 ups ++ Final4 :: cs) = Ok (Some l).
Proof.
  intros A Hm Hm' Hr Hc Hs S Hh EV FT EC MO. destruct (message_run4 rate capacity hashbitlen suffix ups cs Hc Hs S Hh EV FT EC (fun i Hi => proj1 (MO i Hi))) as (g & Hg & k4 & Ek & fuel0 & H).
  assert (M : Forall bytes_call4 (map update4 ups ++ Final4 :: cs)).
  { apply Forall_app. split; [apply ups_bytes; assumption|]. constructor; [exact Logic.I|apply calls_bytes; [exact EC|exact (fun i Hi => proj2 (MO i Hi))]]. }
  assert (X : (rate / 8 < 200)%N) by (apply N.div_lt_upper_bound; [discriminate|exact Hr]).
  exists fuel0. intros fuel Hf. destruct (H fuel Hf) as (l & E & _). exists l. split.
  - apply (any4_session _ _ _ _ (simd256_any4 P A) (le_n 200) fuel m rate capacity hashbitlen suffix k4); try assumption. lia.
  - apply (any4_session _ _ _ _ opt64x4_any4 ltac:(lia) fuel m' rate capacity hashbitlen suffix k4); try assumption. lia.
Qed.

(** a rate of 1600 bits with the C code *)
Lemma opt64x4_last_full suffix : is_byte suffix -> suffix <> 0%N -> exists m sts, same4 m sts /\
  g_sponge4_last opt64x4 (mkSponge (concat (repeat (repeat 0%N 200) 4)) 1600 0 false) suffix = Ok (Some (mkSponge m 1600 0 true)).
Proof.
  intros Hb Hz. unfold g_sponge4_last. cbn [sp_rate sp_squeezing sp_state sp_idx]. change (1600 / 8) with 200. destruct (N.eqb_spec suffix 0) as [Z|_]; [contradiction|].
  pose proof opt64x4_simulates as SIM.
  assert (A : forall m sts b off, same4 m sts -> is_byte b -> off < 200 -> exists m' sts', g_add_byte4 opt64x4 m b off = Ok m' /\ same4 m' sts').
  { intros m sts b off R Bb Ho. assert (R' := R). destruct R' as (_ & L & F & _). destruct (four_cases sts L) as (a & b' & c & d & ->).
    destruct (g_add_byte4_ok opt64x4 800 same4 permute_24rounds SIM m [a; b'; c; d] b off (map (fun st => xin st off [b]) [a; b'; c; d]) R Bb) as (m' & E & R'); [|exists m'; eexists; split; [exact E|exact R']].
    unfold add_byte4. assert (X : forall st, In st [a; b'; c; d] -> add_byte st b off = Ok (xin st off [b])).
    { intros st Hst. rewrite Forall_forall in F. specialize (F st Hst). unfold good in F. unfold add_byte. rewrite F. destruct (Nat.ltb_spec off 200); [reflexivity|lia]. }
    cbn [mapM map]. rewrite !X by (cbn [In]; auto). reflexivity. }
  assert (R0 : same4 (concat (repeat (repeat 0%N 200) 4)) (repeat (repeat 0%N 200) 4)).
  { split; [reflexivity|]. split; [reflexivity|]. split; apply Forall_forall; intros x Hx; apply repeat_spec in Hx; subst x; [apply repeat_length|apply zeros200]. }
  revert R0. generalize (concat (repeat (repeat 0%N 200) 4)). intros m0 R0.
  destruct (A _ _ suffix 0 R0 Hb ltac:(lia)) as (m1 & s1 & E1 & R1). rewrite E1. cbn [bind]. replace (N.leb 128 suffix && (0 =? 200 - 1)) with false by (rewrite andb_comm; reflexivity). cbn [bind].
  destruct (A _ _ 128%N 199 R1 byte_128 ltac:(lia)) as (m2 & s2 & E2 & R2). change (200 - 1) with 199. rewrite E2. cbn [bind].
  destruct (sim4_permute _ _ _ _ SIM m2 s2 R2) as (m3 & E3 & R3). rewrite E3. cbn [bind]. exists m3, (map permute_24rounds s2). split; [exact R3|reflexivity].
Qed.
Lemma opt64x4_squeeze_full m sts fuel : same4 m sts -> g_sponge4_squeeze opt64x4 (S fuel) (mkSponge m 1600 0 true) 200 = UB OutOfBounds.
Proof.
  intros (-> & L & F & Bs). unfold g_sponge4_squeeze. cbn [sp_squeezing sp_rate sp_state sp_idx bind]. change (1600 / 8) with 200. cbn [g_squeeze_loop4]. change (200 =? 0) with false. change ((0 =? 200) && (200 <=? 200)) with false. change (0 =? 200) with false. cbn match. cbn [bind]. cbv zeta.
  change (N.ltb (N.of_nat 200) (u32 (u32 (N.of_nat 200) + N.of_nat 0))) with false. cbn match. change (u32 (N.of_nat 200)) with 200%N. unfold g_extract4. cbn [seq mapM opt64x4 pl_extract]. unfold opt4_extract at 1.
  rewrite read_state by (assumption || lia). cbn [bind]. pose proof (good_nth sts 0 F ltac:(lia)) as G. unfold good in G.
  destruct (all_at_once (nth 0 sts []) (repeat 0%N 400) 200 0 G (bytes_nth sts 0 Bs ltac:(lia)) (is_bytes_zeros 400)) as (E & _); rewrite ?repeat_length; try lia. rewrite E. reflexivity.
Qed.
Lemma opt64x4_full_rate m suffix fuel : length m = 800 -> (0 < suffix < 256)%N ->
  hash4_session opt64x4 (S fuel) m 1600 0 0 suffix [Final4; Squeeze4 1600] = UB OutOfBounds /\ hash4_session opt64x4 (S fuel) m 1600 0 1600 suffix [Final4] = UB OutOfBounds.
Proof.
  intros Hm Hs. destruct (opt64x4_last_full suffix ltac:(unfold is_byte; lia) ltac:(lia)) as (m1 & sts & R1 & E). unfold hash4_session, hash4_initialize. destruct (N.eqb_spec suffix 0) as [Z|_]; [lia|].
  change (bad_rate 1600 0) with false. cbn match. destruct (sim4_init _ _ _ _ opt64x4_simulates m Hm) as (m0 & E0 & (-> & _)). rewrite E0. cbn [bind hash4_calls hash4_call]. change (N.to_nat 1600) with 1600. change (N.to_nat 0) with 0. unfold hash4_final. cbn [kh_sponge kh_suffix kh_fixed].
  rewrite E. cbn [bind]. change (0 / 8) with 0. change (1600 / 8) with 200. split; [|rewrite (opt64x4_squeeze_full _ _ _ R1); reflexivity].
  unfold g_sponge4_squeeze at 1. cbn [sp_squeezing sp_rate sp_state sp_idx bind g_squeeze_loop4 Nat.eqb]. unfold hash4_squeeze. change (negb (N.eqb (1600 mod 8) 0)) with false. cbn match. cbn [kh_sponge]. change (N.to_nat (1600 / 8)) with 200.
  rewrite (opt64x4_squeeze_full _ _ _ R1). reflexivity.
Qed.
