(** With the permutation of keccak/opt64 the hash library computes the functions of FIPS 202 on bit strings. *)
From Coq Require Import Arith NArith List Bool Lia.
From Verif Require Import Prelude SpongeModel SpongeSpec SpongeFacts SpongeApi KeccakModel KeccakSpec KeccakFacts KeccakBytes KeccakShake KeccakHash
  Sponge4Facts BitHashSpec BitHashModel BitHashFacts BitHashApi BitHashRuns.
Import ListNotations.

Lemma bits_of_one l : length l = 8 -> byte_bits (byte_of_bits l) = l.
Proof.
  intros L. do 8 (destruct l as [|? l]; [discriminate|]). destruct l; [|discriminate].
  repeat match goal with b : bool |- _ => destruct b end; reflexivity.
Qed.
Lemma byte_of_bits_lt l : length l = 8 -> (byte_of_bits l < 256)%N.
Proof.
  intros L. do 8 (destruct l as [|? l]; [discriminate|]). destruct l; [|discriminate].
  repeat match goal with b : bool |- _ => destruct b end; reflexivity.
Qed.
Lemma bits_pack : forall k l, length l = 8 * k -> bits_of (pack k l) = l /\ is_bytes (pack k l) /\ length (pack k l) = k.
Proof.
  induction k as [|k IH]; intros l L. { destruct l; [|discriminate]. repeat split. constructor. }
  cbn [pack]. assert (L8 : length (firstn 8 l) = 8) by (rewrite firstn_length; lia).
  destruct (IH (skipn 8 l)) as (A & B & C). { rewrite skipn_length. lia. }
  split; [|split].
  - change (bits_of (byte_of_bits (firstn 8 l) :: pack k (skipn 8 l))) with (byte_bits (byte_of_bits (firstn 8 l)) ++ bits_of (pack k (skipn 8 l))).
    rewrite A, bits_of_one by exact L8. apply firstn_skipn.
  - constructor; [apply byte_of_bits_lt; exact L8|exact B].
  - cbn [length]. rewrite C. reflexivity.
Qed.
Lemma padded_length rb n : 1 <= rb -> exists q, length (n ++ pad10s1 (8 * rb) (length n)) = q * (8 * rb).
Proof.
  intros R. rewrite app_length. unfold pad10s1. rewrite !app_length, repeat_length. cbn [length]. set (m := length n). set (r := 8 * rb).
  assert (R8 : 8 <= r) by (unfold r; lia). pose proof (Nat.div_mod m r ltac:(lia)) as D. pose proof (Nat.mod_upper_bound m r ltac:(lia)) as U.
  destruct (Nat.leb_spec (m mod r + 2) r) as [H|H].
  - exists (m / r + 1). assert (E : (2 * r - m mod r - 2) mod r = r - m mod r - 2) by (symmetry; apply (Nat.mod_unique _ _ 1); lia). rewrite E. nia.
  - exists (m / r + 2). assert (E : (2 * r - m mod r - 2) mod r = 2 * r - m mod r - 2) by (apply Nat.mod_small; lia). rewrite E. nia.
Qed.
Lemma keccak_bits R n k : 1 <= R <= 200 ->
  bits_of (map (keccak_byte permute_24rounds R n) (seq 0 k)) = KeccakSpec.sponge (8 * R) n (8 * k).
Proof.
  intros HR. destruct (padded_length R n ltac:(lia)) as (q & Lq).
  assert (D8 : length (n ++ pad10s1 (8 * R) (length n)) / 8 = q * R) by (rewrite Lq; replace (q * (8 * R)) with (q * R * 8) by lia; apply Nat.div_mul; discriminate).
  destruct (bits_pack (q * R) (n ++ pad10s1 (8 * R) (length n))) as (PA & PB & PC). { rewrite Lq. lia. }
  unfold KeccakSpec.sponge, keccak_byte, padded. rewrite D8. cbv zeta. set (p := pack (q * R) (n ++ pad10s1 (8 * R) (length n))) in *.
  rewrite Lq, Nat.div_mul by lia. rewrite PC, Nat.div_mul by lia.
  destruct (absorb_bits R ltac:(lia) q (repeat 0%N 200) p (is_bytes_zeros 200) (repeat_length _ _) PB ltac:(lia)) as (A & B & C).
  rewrite PA in A. rewrite bits_zeros in A. change (8 * 200) with 1600 in A. rewrite <- A. set (S0 := absorb_n permute_24rounds R q (repeat 0%N 200) p) in *.
  assert (L0 : length (bits_of S0) = 1600) by (rewrite KeccakBytes.bits_length, C; reflexivity).
  pose proof (Nat.div_mod (8 * k) (8 * R) ltac:(lia)) as D. pose proof (Nat.mod_upper_bound (8 * k) (8 * R) ltac:(lia)) as U.
  apply (nth_ext _ _ false false).
  - rewrite KeccakBytes.bits_length, map_length, seq_length, firstn_length, squeeze_length by (lia || exact L0). apply eq_sym, Nat.min_l. lia.
  - rewrite KeccakBytes.bits_length, map_length, seq_length. intros i Hi. rewrite nth_first by exact Hi. rewrite squeeze_nth by (lia || exact L0).
    rewrite bits_nth' by (rewrite map_length, seq_length; exact Hi). assert (Q : i / 8 < k) by (apply Nat.div_lt_upper_bound; lia).
    set (g := fun i : nat => nth (i mod R) (Nat.iter (i / R) permute_24rounds S0) 0%N).
    rewrite (nth_indep (map g _) 0%N (g 0)) by (rewrite map_length, seq_length; exact Q). rewrite map_nth, seq_nth by exact Q. cbn [Nat.add]. unfold g.
    rewrite Nat.mod_mul_r by lia. rewrite <- Nat.div_div by lia. destruct (iter_bits (i / 8 / R) S0 B C) as (A' & B' & C'). rewrite <- A'.
    replace (i mod 8 + 8 * ((i / 8) mod R)) with (8 * ((i / 8) mod R) + i mod 8) by lia. symmetry. apply bits_nth; [apply Nat.mod_upper_bound; discriminate|]. refine (Nat.lt_le_trans _ R _ _ _); [apply Nat.mod_upper_bound; lia|]. refine (eq_ind_r (fun k => R <= k) _ C'). lia.
Qed.

(** the macros *)
Definition rate_of (a : algorithm) : N := N.of_nat (1600 - capacity_of a).
Definition suffix_of (a : algorithm) : N := match a with Shake128 | Shake256 => 0x1F | _ => 0x06 end%N.
Lemma macro_init a : init_macro a = kb_init (rate_of a) (N.of_nat (capacity_of a)) (N.of_nat (digest_of a)) (suffix_of a) /\
  sound (rate_of a) (N.of_nat (capacity_of a)) (suffix_of a) /\ (N.of_nat (capacity_of a) < 2 ^ 32)%N /\ (suffix_of a < 256)%N /\
  suffix_bits (suffix_of a) = domain_of a /\ 8 * N.to_nat (rate_of a / 8) = 1600 - capacity_of a /\ 1 <= N.to_nat (rate_of a / 8) <= 200 /\
  (N.of_nat (digest_of a) / 8 + 200 <= 2 ^ 32)%N /\ 8 * N.to_nat (N.of_nat (digest_of a) / 8) = digest_of a.
Proof.
  assert (X : forall (A B : Prop), A -> B -> A /\ B) by auto.
  destruct a; (apply X; [reflexivity|]); (apply X; [unfold sound; repeat split; discriminate || reflexivity|]); (apply X; [reflexivity|]); (apply X; [reflexivity|]); (apply X; [reflexivity|]); (apply X; [vm_compute; reflexivity|]);
  (apply X; [split; apply Nat.leb_le; vm_compute; reflexivity|]); (apply X; [apply N.leb_le; vm_compute; reflexivity|vm_compute; reflexivity]).
Qed.
Lemma sha3_run a ups q : Forall fits ups -> Forall whole_bytes (removelast ups) -> (q mod 8 = 0)%N -> (q / 8 + 200 <= 2 ^ 32)%N ->
  exists k, init_macro a = Some k /\ exists fuel0, forall fuel, fuel0 <= fuel -> exists digest more,
    kb_calls permute_24rounds fuel k (map update ups ++ [Final; Squeeze q]) =
      Ok (map (fun _ => (Success, [])) ups ++ [(Success, digest); (Success, more)]) /\
    bits_of digest = fips202 a (message ups) (digest_of a) /\
    bits_of (digest ++ more) = fips202 a (message ups) (digest_of a + N.to_nat q).
Proof.
  intros FT WB Z Q. destruct (macro_init a) as (E & V & C & S & SB & R8 & RR & HB & D8).
  destruct (message_run_any permute_24rounds permute_keeps (rate_of a) (N.of_nat (capacity_of a)) (N.of_nat (digest_of a)) (suffix_of a) ups [Squeeze q] C S V HB FT WB)
    as (k & EK & fuel0 & H). { repeat constructor. exact Q. }
  exists k. split; [rewrite E; exact EK|]. exists fuel0. intros fuel F. specialize (H fuel F). cbv zeta in H. rewrite SB in H.
  cbn [answers] in H. rewrite Z in H. cbn [N.eqb] in H. eexists. eexists. split; [exact H|].
  assert (Q8 : N.to_nat q = 8 * N.to_nat (q / 8)).
  { pose proof (N.div_mod q 8 ltac:(discriminate)) as DM. rewrite Z in DM. lia. }
  unfold fips202. rewrite <- R8. split.
  - unfold outputs. rewrite keccak_bits by exact RR. f_equal. exact D8.
  - unfold outputs. rewrite <- map_app. rewrite <- seq_app. rewrite keccak_bits by exact RR. f_equal. rewrite <- D8 at 2. lia.
Qed.
Lemma macro_lanes a i : i < 4 -> init_macro a = option_map (lane_k i) (init4_macro a) /\ (forall k, init4_macro a = Some k -> okq k).
Proof. intros I. destruct a; apply init4_lanes; exact I. Qed.
Lemma sha3_run4 a ups q : Forall (fun u => even4 (update4 u)) ups -> Forall (fun u => forall i, i < 4 -> fits (nth i (fst u) [], snd u)) ups ->
  (q mod 8 = 0)%N -> (q / 8 + 200 <= 2 ^ 32)%N ->
  exists k, init4_macro a = Some k /\ exists fuel0, forall fuel, fuel0 <= fuel -> exists l,
    kb_calls4 permute_24rounds fuel k (map update4 ups ++ [Final4; Squeeze4 q]) = Ok l /\
    forall i, i < 4 -> exists digest more,
      map (fun r => (fst r, nth i (snd r) [])) l = map (fun _ => (Success, [])) ups ++ [(Success, digest); (Success, more)] /\
      bits_of digest = fips202 a (message (lane_data i ups)) (digest_of a) /\
      bits_of (digest ++ more) = fips202 a (message (lane_data i ups)) (digest_of a + N.to_nat q).
Proof.
  intros EV FT Z Q.
  assert (R : forall i, i < 4 -> exists k, init_macro a = Some k /\ exists fuel0, forall fuel, fuel0 <= fuel -> exists digest more,
    kb_calls permute_24rounds fuel k (map update (lane_data i ups) ++ [Final; Squeeze q]) =
      Ok (map (fun _ => (Success, [])) (lane_data i ups) ++ [(Success, digest); (Success, more)]) /\
    bits_of digest = fips202 a (message (lane_data i ups)) (digest_of a) /\
    bits_of (digest ++ more) = fips202 a (message (lane_data i ups)) (digest_of a + N.to_nat q)).
  { intros i I. apply sha3_run; auto.
    - apply Forall_forall. intros x X. apply in_map_iff in X. destruct X as (u & <- & U). rewrite Forall_forall in FT. apply (FT u U i I).
    - assert (W : Forall whole_bytes (lane_data i ups)).
      { apply Forall_forall. intros x X. apply in_map_iff in X. destruct X as (u & <- & U). rewrite Forall_forall in EV. exact (proj2 (EV u U)). }
      revert W. generalize (lane_data i ups). intros l. induction l as [|x l IH]; intros W; [constructor|].
      inversion W; subst. destruct l; [constructor|]. change (removelast (x :: p :: l)) with (x :: removelast (p :: l)). constructor; auto. }
  destruct (init4_macro a) as [k4|] eqn:E4.
  2: { exfalso. destruct (R 0 ltac:(lia)) as (k & E & _). destruct (macro_lanes a 0 ltac:(lia)) as [E' _]. rewrite E4 in E'. cbn in E'. congruence. }
  exists k4. split; [reflexivity|].
  destruct (R 0 ltac:(lia)) as (k_0 & E0 & f0 & R0). destruct (R 1 ltac:(lia)) as (k_1 & E1 & f1 & R1).
  destruct (R 2 ltac:(lia)) as (k_2 & E2 & f2 & R2). destruct (R 3 ltac:(lia)) as (k_3 & E3 & f3 & R3). clear R.
  exists (f0 + f1 + f2 + f3). intros fuel F.
  assert (EVA : Forall even4 (map update4 ups ++ [Final4; Squeeze4 q])).
  { apply Forall_app. split; [apply Forall_map; exact EV|repeat constructor]. }
  assert (LN : forall i, map (lane i) (map update4 ups ++ [Final4; Squeeze4 q]) = map update (lane_data i ups) ++ [Final; Squeeze q]).
  { intros i. rewrite map_app. f_equal. unfold lane_data. rewrite !map_map. reflexivity. }
  assert (K : forall i, i < 4 -> forall k, init_macro a = Some k ->
    kb_calls permute_24rounds fuel k (map update (lane_data i ups) ++ [Final; Squeeze q]) =
    rmap (map (lane_r i)) (kb_calls4 permute_24rounds fuel k4 (map update4 ups ++ [Final4; Squeeze4 q]))).
  { intros i I k EK. destruct (macro_lanes a i I) as [E' O]. rewrite E4 in E'. cbn [option_map] in E'. rewrite E' in EK. injection EK as <-.
    rewrite <- LN. apply (calls4_lanes permute_24rounds permute_keeps fuel i I); [apply O; exact E4|exact EVA]. }
  assert (UL : forall i, map (fun _ : bytes * N => (Success, [] : bytes)) (lane_data i ups) = map (fun _ => (Success, [])) ups).
  { intros i. unfold lane_data. rewrite map_map. reflexivity. }
  destruct (kb_calls4 permute_24rounds fuel k4 (map update4 ups ++ [Final4; Squeeze4 q])) as [l| | |] eqn:EL.
  2-4: exfalso; destruct (R0 fuel ltac:(lia)) as (d & m & X & _); rewrite (K 0 ltac:(lia) _ E0) in X; discriminate X.
  exists l. split; [reflexivity|]. intros i I.
  assert (G : forall k f', init_macro a = Some k -> (forall fuel, f' <= fuel -> exists digest more,
      kb_calls permute_24rounds fuel k (map update (lane_data i ups) ++ [Final; Squeeze q]) =
        Ok (map (fun _ => (Success, [])) (lane_data i ups) ++ [(Success, digest); (Success, more)]) /\
      bits_of digest = fips202 a (message (lane_data i ups)) (digest_of a) /\
      bits_of (digest ++ more) = fips202 a (message (lane_data i ups)) (digest_of a + N.to_nat q)) -> f' <= fuel ->
    exists digest more,
      map (fun r => (fst r, nth i (snd r) [])) l = map (fun _ => (Success, [])) ups ++ [(Success, digest); (Success, more)] /\
      bits_of digest = fips202 a (message (lane_data i ups)) (digest_of a) /\
      bits_of (digest ++ more) = fips202 a (message (lane_data i ups)) (digest_of a + N.to_nat q)).
  { intros k f' EK H L. destruct (H fuel L) as (d & m & X & Y). exists d, m. split; [|exact Y].
    rewrite (K i I _ EK) in X. cbn [rmap] in X. injection X as X. rewrite UL in X. exact X. }
  destruct i as [|[|[|[|i]]]]; [exact (G _ _ E0 R0 ltac:(lia))|exact (G _ _ E1 R1 ltac:(lia))|exact (G _ _ E2 R2 ltac:(lia))|exact (G _ _ E3 R3 ltac:(lia))|lia].
Qed.
