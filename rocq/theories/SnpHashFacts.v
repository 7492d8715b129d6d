(** The hash library over the two implementations *)
From Coq Require Import Arith NArith ZArith String List Bool Lia.
From Verif Require KeccakSpec.
From Verif Require Import Prelude SpongeModel SpongeApi KeccakModel KeccakHash BitHashSpec BitHashModel BitHashFacts BitHashApi BitHashRuns BitHashFips SnpSponge SnpSim Opt64Model Opt64Facts.
From Verif Require Import X86Model Avx2Code Avx2Mem Avx2Facts Avx2Model Avx2Sim StateModel StateFacts HashImplSpec SnpHash SnpHashSim.
Import ListNotations.
Local Open Scope nat_scope.
Local Open Scope list_scope.

Lemma blocks_fuel f n (Hn : 0 < n) : forall fuel st d st' d', absorb_blocks f n fuel st d = Ok (st', d') -> List.length d / n < fuel.
Proof.
  induction fuel as [|fuel IH]; intros st d st' d' E; [discriminate|]. cbn [absorb_blocks] in E. destruct (Nat.leb_spec n (List.length d)) as [A|A].
  - apply bind_ok in E. destruct E as (st1 & _ & E). apply IH in E. rewrite skipn_length in E. replace (List.length d) with (1 * n + (List.length d - n)) by lia. rewrite Nat.div_add_l by lia. lia.
  - rewrite Nat.div_small by exact A. lia.
Qed.
Lemma avx2_fast_any J fuel m st lanes d st' d' : rel m st -> is_bytes d -> small d -> 1 <= lanes <= 25 -> absorb_blocks permute_24rounds (8 * lanes) fuel st d = Ok (st', d') ->
  exists m' j, asm_fast_any J fuel m lanes d = Ok (m', j) /\ rel m' st' /\ skipn j d = d'.
Proof.
  intros R Hd Sd HL A. pose proof (blocks_fuel permute_24rounds (8 * lanes) ltac:(lia) _ _ _ _ _ A) as F. pose proof (rel_facts m st R) as (_ & _ & L & Bs).
  destruct (absorb24 lanes fuel st d F Bs L Hd HL) as (E & _). rewrite E in A. injection A as A1 A2.
  destruct (call_absorb24 (J m) fuel m st lanes d R Hd Sd HL F) as (M & EM & R' & EA & _). unfold asm_fast_any, asm_absorb. cbv zeta. rewrite EM. cbn [bind]. rewrite EA. cbn [bind].
  exists (mst M), (8 * lanes * (List.length d / (8 * lanes))). rewrite Nat2N.id. split; [reflexivity|]. split; [rewrite <- A1; exact R'|exact A2].
Qed.
Lemma avx2_any_simulates J : simulates_any (avx2_any J) rel permute_24rounds 200.
Proof.
  pose proof (avx2_simulates J) as H. constructor.
  - constructor; cbn [avx2_any snp_init snp_add_byte snp_add_bytes snp_extract snp_permute snp_fast].
    + exact (sim_init _ _ _ _ H).
    + exact (sim_add_byte _ _ _ _ H).
    + exact (sim_add_bytes _ _ _ _ H).
    + exact (sim_extract _ _ _ _ H).
    + exact (sim_permute _ _ _ _ H).
    + intros fuel m st lanes d st' d' R Hd Sd HL A. apply (avx2_fast_any J fuel m st); try assumption. lia.
  - cbn [avx2_any snp_extract]. intros m st off len o R _ E. apply extract_inv in E. destruct E as (H1 & ->). pose proof (rel_facts m st R) as (Lm & Bm & Ls & Bs). rewrite Ls in H1. unfold asm_extract. cbv zeta.
    destruct (call_extract (J m) m st (map (j_buf (J m)) (seq 0 (N.to_nat len))) off (N.to_nat len) (j_half (J m)) R H1) as (M & E & _ & _ & q); [rewrite map_length; apply seq_length|]. rewrite N2Nat.id in E. rewrite E. cbn [bind]. rewrite q. reflexivity.
  - cbn [avx2_any snp_fast]. intros fuel m st lanes d st' d' R Hd Sd HL A. apply (avx2_fast_any J fuel m st); assumption.
Qed.
Lemma opt64_any_simulates : simulates_any opt64 same permute_24rounds 199.
Proof.
  constructor; [exact opt64_simulates| |].
  - intros m st off len o R H0 E. apply (sim_extract _ _ _ _ opt64_simulates m st); [exact R| |exact E]. intros Z. specialize (H0 Z). lia.
  - cbn [opt64 snp_fast]. intros fuel m st lanes d st' d' (-> & Hb & L) Hd _ HL E. destruct (opt_fast_ok lanes ltac:(lia) _ _ _ _ _ Hb Hd L E) as (F1 & F2 & F3 & j & Hj & F4).
    exists st', (List.length d - List.length d'). unfold opt_fast. rewrite L. rewrite Nat.eqb_refl. rewrite F1. cbn [bind]. rewrite to_from by assumption. split; [reflexivity|]. split; [repeat split; assumption|]. rewrite F4, skipn_length. f_equal. lia.
Qed.

Lemma fits_machine ups : Forall fits ups -> Forall machine_call (map update ups).
Proof.
  intros H. apply Forall_map. eapply Forall_impl; [|exact H]. intros [d n] (H1 & H2 & H3). cbn [fst snd] in *. cbn [update fst snd machine_call]. split; [exact H1|].
  pose proof (N.div_mod n 8 ltac:(discriminate)). pose proof (N.mod_lt n 8 ltac:(discriminate)). change (2 ^ 64)%N with 18446744073709551616%N. change (2 ^ 32)%N with 4294967296%N in H3. lia.
Qed.
Lemma sound_bytes rate capacity suffix : sound rate capacity suffix -> 1 <= N.to_nat (rate / 8) <= 200 /\ N.to_nat rate = 8 * N.to_nat (rate / 8).
Proof. intros (H1 & H2 & H3 & _). pose proof (N.div_mod rate 8 ltac:(discriminate)). lia. Qed.
Lemma stream_ok rate capacity suffix n : sound rate capacity suffix -> is_sponge (N.to_nat rate) n (keccak_byte permute_24rounds (N.to_nat (rate / 8)) n).
Proof. intros S k. destruct (sound_bytes _ _ _ S) as [H1 H2]. rewrite H2. apply keccak_bits. exact H1. Qed.

Section Any.
Variables (P : snp) (R : bytes -> bytes -> Prop) (B : nat).
Hypothesis ANY : simulates_any P R permute_24rounds B.
Hypothesis HB : B <= 200.
Lemma any_message m rate capacity hashbitlen suffix ups cs : List.length m = 200 -> (rate / 8 <= N.of_nat B)%N ->
  (capacity < 2 ^ 32)%N -> (suffix < 256)%N -> sound rate capacity suffix ->
  (hashbitlen / 8 + 200 <= 2 ^ 32)%N -> Forall fits ups -> Forall whole_bytes (removelast ups) -> Forall modest cs -> Forall machine_call cs ->
  exists g fuel0, is_sponge (N.to_nat rate) (message ups ++ suffix_bits suffix) g /\ forall fuel, fuel0 <= fuel ->
    hash_session P fuel m rate capacity hashbitlen suffix (map update ups ++ Final :: cs) =
    Ok (Some (map (fun _ => (Success, [])) ups ++ (Success, outputs g 0 (N.to_nat (hashbitlen / 8))) :: answers g (N.to_nat (hashbitlen / 8)) cs)).
Proof.
  intros Hm Hr Hc Hs S Hh Hu Hw Ho Hcs. destruct (message_run_any permute_24rounds permute_keeps rate capacity hashbitlen suffix ups cs Hc Hs S Hh Hu Hw Ho) as (k & Ek & fuel0 & H).
  exists (keccak_byte permute_24rounds (N.to_nat (rate / 8)) (message ups ++ suffix_bits suffix)), fuel0. split; [apply (stream_ok _ _ _ _ S)|].
  intros fuel Hf. apply (any_session P R permute_24rounds B ANY HB fuel m rate capacity hashbitlen suffix k); try assumption; [|exact (H fuel Hf)].
  apply Forall_app. split; [apply fits_machine; exact Hu|]. constructor; [exact Logic.I|exact Hcs].
Qed.
Lemma any_early m rate capacity hashbitlen suffix ups q cs : List.length m = 200 -> (rate / 8 <= N.of_nat B)%N ->
  (capacity < 2 ^ 32)%N -> (suffix < 256)%N -> sound rate capacity suffix ->
  Forall fits ups -> Forall whole_bytes ups -> Forall modest (Squeeze q :: cs) -> (q mod 8 = 0)%N -> Forall machine_call cs ->
  exists g fuel0, is_sponge (N.to_nat rate) (message ups) g /\ forall fuel, fuel0 <= fuel ->
    hash_session P fuel m rate capacity hashbitlen suffix (map update ups ++ Squeeze q :: cs) =
    Ok (Some (map (fun _ => (Success, [])) ups ++ answers g 0 (Squeeze q :: cs))).
Proof.
  intros Hm Hr Hc Hs S Hu Hw Ho Hq Hcs. destruct (early_run permute_24rounds permute_keeps rate capacity hashbitlen suffix ups q cs Hc Hs S Hu Hw Ho Hq) as (k & Ek & fuel0 & H).
  exists (keccak_byte permute_24rounds (N.to_nat (rate / 8)) (message ups)), fuel0. split; [apply (stream_ok _ _ _ _ S)|].
  intros fuel Hf. apply (any_session P R permute_24rounds B ANY HB fuel m rate capacity hashbitlen suffix k); try assumption; [|exact (H fuel Hf)].
  apply Forall_app. split; [apply fits_machine; exact Hu|]. constructor; [exact Logic.I|exact Hcs].
Qed.
Lemma any_fips202 (HB' : 168 <= B) m a ups q : List.length m = 200 -> Forall fits ups -> Forall whole_bytes (removelast ups) -> (q mod 8 = 0)%N -> (q / 8 + 200 <= 2 ^ 32)%N ->
  exists fuel0, forall fuel, fuel0 <= fuel -> exists digest more,
    macro_session P fuel m a (map update ups ++ [Final; Squeeze q]) = Ok (Some (map (fun _ => (Success, [])) ups ++ [(Success, digest); (Success, more)])) /\
    KeccakSpec.bits_of digest = fips202 a (message ups) (digest_of a) /\
    KeccakSpec.bits_of (digest ++ more) = fips202 a (message ups) (digest_of a + N.to_nat q).
Proof.
  intros Hm Hu Hw Hq Ho. destruct (sha3_run a ups q Hu Hw Hq Ho) as (k & Ek & fuel0 & H). exists fuel0. intros fuel Hf. destruct (H fuel Hf) as (digest & more & E & H1 & H2). exists digest, more. split; [|split; assumption].
  assert (M : Forall machine_call (map update ups ++ [Final; Squeeze q])) by (apply Forall_app; split; [apply fits_machine; exact Hu|repeat constructor]).
  destruct a; cbn [init_macro macro_session] in *; (eapply (any_session P R permute_24rounds B ANY HB); [exact Hm| |reflexivity|exact M|exact Ek|exact E]); apply N.leb_le; match goal with |- N.leb ?x _ = true => let v := eval vm_compute in x in change x with v end; apply N.leb_le; lia.
Qed.
Lemma any_function m rate capacity input suffix outlen : List.length m = 200 -> (rate / 8 <= N.of_nat B)%N ->
  (capacity < 2 ^ 32)%N -> (suffix < 256)%N -> sound rate capacity suffix -> is_bytes input -> small input ->
  exists g fuel0, is_sponge (N.to_nat rate) (KeccakSpec.bits_of input ++ suffix_bits suffix) g /\ forall fuel, fuel0 <= fuel ->
    sponge_function P fuel m rate capacity input suffix outlen = Ok (Some (outputs g 0 outlen)).
Proof.
  intros Hm Hr Hc Hs S Hi Si. destruct (oneshot_ok permute_24rounds permute_keeps rate capacity input suffix outlen Hc Hs S Hi) as (fuel0 & H).
  exists (keccak_byte permute_24rounds (N.to_nat (rate / 8)) (KeccakSpec.bits_of input ++ suffix_bits suffix)), fuel0. split; [apply (stream_ok _ _ _ _ S)|].
  intros fuel Hf. apply (any_oneshot P R permute_24rounds B ANY HB); try assumption. exact (H fuel Hf).
Qed.
Lemma any_refused m rate capacity hashbitlen suffix fuel cs input outlen : (capacity < 2 ^ 32)%N -> ~ sound rate capacity suffix ->
  hash_session P fuel m rate capacity hashbitlen suffix cs = Ok None /\ sponge_function P fuel m rate capacity input suffix outlen = Ok None.
Proof.
  intros Hc S. split; [apply none_session; apply init_fails; assumption|]. pose proof (oneshot_fails (fun x => x) rate capacity input suffix outlen 0 Hc S) as E.
  unfold oneshot, sponge_function in *. cbv zeta in *. destruct (bad_rate rate capacity); [reflexivity|]. destruct (N.eqb suffix 0); [reflexivity|discriminate].
Qed.
End Any.

(** a rate of 1600 bits: accepted, but a whole block of output is more than the C code can extract at once *)
Lemma opt64_last_full suffix : is_byte suffix -> suffix <> 0%N -> exists st, List.length st = 200 /\ is_bytes st /\
  g_sponge_last opt64 (mkSponge (repeat 0%N 200) 1600 0 false) suffix = Ok (Some (mkSponge st 1600 0 true)).
Proof.
  intros Hb Hz. unfold g_sponge_last. cbn [sp_rate sp_squeezing sp_state sp_idx]. change (1600 / 8) with 200. destruct (N.eqb_spec suffix 0) as [Z|_]; [contradiction|].
  pose proof opt64_simulates as SIM. assert (R0 : same (repeat 0%N 200) (repeat 0%N 200)) by (split; [reflexivity|apply zeros200]).
  assert (A : forall st b off, same st st -> is_byte b -> off < 200 -> exists st', snp_add_byte opt64 st b off = Ok st' /\ same st' st').
  { intros st b off R Bb Ho. destruct (sim_add_byte _ _ _ _ SIM st st b off (xin st off [b]) R Bb) as (m' & E & R'); [|exists m'; split; [exact E|destruct R' as (-> & Q); exact (conj eq_refl Q)]].
    unfold add_byte. destruct R as (_ & _ & L). rewrite L. destruct (Nat.ltb_spec off 200); [reflexivity|lia]. }
  destruct (A _ suffix 0 R0 Hb ltac:(lia)) as (s1 & E1 & R1). rewrite E1. cbn [bind]. replace (N.leb 128 suffix && (0 =? 200 - 1)) with false by (rewrite andb_comm; reflexivity). cbn [bind].
  destruct (A _ 128%N 199 R1 byte_128 ltac:(lia)) as (s2 & E2 & R2). change (200 - 1) with 199. rewrite E2. cbn [bind].
  destruct (sim_permute _ _ _ _ SIM s2 s2 R2) as (s3 & E3 & R3). rewrite E3. cbn [bind]. destruct R3 as (-> & R3 & L3). exists (permute_24rounds s2). split; [exact L3|]. split; [exact R3|reflexivity].
Qed.
Lemma opt64_squeeze_full st fuel : List.length st = 200 -> is_bytes st -> g_sponge_squeeze opt64 (S fuel) (mkSponge st 1600 0 true) 200 = UB OutOfBounds.
Proof.
  intros L Hb. unfold g_sponge_squeeze. cbn [sp_squeezing sp_rate sp_state sp_idx bind]. change (1600 / 8) with 200. cbn [g_squeeze_loop]. change (200 =? 0) with false. change ((0 =? 200) && (200 <=? 200)) with false. change (0 =? 200) with false. cbn match. cbn [bind]. cbv zeta.
  change (N.ltb (N.of_nat 200) (u32 (u32 (N.of_nat 200) + N.of_nat 0))) with false. cbn match. change (u32 (N.of_nat 200)) with 200%N. cbn [opt64 snp_extract].
  destruct (all_at_once st (repeat 0%N 400) 200 0 L Hb (is_bytes_zeros 400)) as (E & _); rewrite ?repeat_length; try lia. rewrite E. reflexivity.
Qed.
Lemma opt64_full_rate m suffix fuel : List.length m = 200 -> (0 < suffix < 256)%N ->
  hash_session opt64 (S fuel) m 1600 0 0 suffix [Final; Squeeze 1600] = UB OutOfBounds /\ hash_session opt64 (S fuel) m 1600 0 1600 suffix [Final] = UB OutOfBounds.
Proof.
  intros Hm Hs. destruct (opt64_last_full suffix ltac:(unfold is_byte; lia) ltac:(lia)) as (st & L & Hb & E). unfold hash_session, hash_initialize. destruct (N.eqb_spec suffix 0) as [Z|_]; [lia|].
  change (bad_rate 1600 0) with false. cbn match. cbn [opt64 snp_init]. fold opt64. rewrite opt_init_ok by exact Hm. cbn [bind hash_calls hash_call]. change (N.to_nat 1600) with 1600. change (N.to_nat 0) with 0. unfold hash_final. cbn [kh_sponge kh_suffix kh_fixed].
  rewrite E. cbn [bind]. change (0 / 8) with 0. change (1600 / 8) with 200. split; [|rewrite opt64_squeeze_full by assumption; reflexivity].
  unfold g_sponge_squeeze at 1. cbn [sp_squeezing sp_rate sp_state sp_idx bind g_squeeze_loop Nat.eqb]. unfold hash_squeeze. change (negb (N.eqb (1600 mod 8) 0)) with false. cbn match. cbn [kh_sponge]. change (N.to_nat (1600 / 8)) with 200.
  rewrite opt64_squeeze_full by assumption. reflexivity.
Qed.
Lemma sessions_same J m m' rate capacity hashbitlen suffix ups cs : List.length m = 200 -> List.length m' = 200 -> (rate < 1600)%N ->
  (capacity < 2 ^ 32)%N -> (suffix < 256)%N -> sound rate capacity suffix ->
  (hashbitlen / 8 + 200 <= 2 ^ 32)%N -> Forall fits ups -> Forall whole_bytes (removelast ups) -> Forall modest cs -> Forall machine_call cs ->
  exists l fuel0, forall fuel, fuel0 <= fuel ->
    hash_session (avx2_any J) fuel m rate capacity hashbitlen suffix (map update ups ++ Final :: cs) = Ok (Some l) /\
    hash_session opt64 fuel m' rate capacity hashbitlen suffix (map update ups ++ Final :: cs) = Ok (Some l).
Proof.
  intros Hm Hm' Hr Hc Hs S Hh Hu Hw Ho Hcs. destruct (message_run_any permute_24rounds permute_keeps rate capacity hashbitlen suffix ups cs Hc Hs S Hh Hu Hw Ho) as (k & Ek & fuel0 & H).
  assert (M : Forall machine_call (map update ups ++ Final :: cs)) by (apply Forall_app; split; [apply fits_machine; exact Hu|constructor; [exact Logic.I|exact Hcs]]).
  assert (Q : (rate / 8 < 200)%N) by (apply N.div_lt_upper_bound; [discriminate|exact Hr]).
  eexists. exists fuel0. intros fuel Hf. specialize (H fuel Hf). cbv zeta in H. split.
  - apply (any_session _ _ _ _ (avx2_any_simulates J) (le_n 200) fuel m rate capacity hashbitlen suffix k); try assumption; [|exact H]. lia.
  - apply (any_session _ _ _ _ opt64_any_simulates ltac:(lia) fuel m' rate capacity hashbitlen suffix k); try assumption. lia.
Qed.
