(** Every build's hash functions answer as FIPS202. *)
From Coq Require Import Arith NArith List Bool Lia.
From Verif Require Import Prelude HashModel SpongeModel SpongeSpec SpongeFacts SpongeApi Sponge4Facts SpongeCases KeccakSpec KeccakModel KeccakBytes KeccakShake KeccakHash
  SnpSponge SnpSim SnpSim4 SnpShake BuildSpec.
Import ListNotations.

Lemma bits_num_byte b : is_byte b -> bits_num (byte_bits b) = b.
Proof.
  intros H. apply N.bits_inj_iff. intros n.
  assert (G : forall l n, N.testbit (bits_num l) n = nth (N.to_nat n) l false).
  { clear. induction l as [|x l IH]; intros n; cbn [bits_num]; [rewrite N.bits_0; destruct (N.to_nat n); reflexivity|].
    destruct (N.eq_dec n 0) as [->|Hn].
    - rewrite N.add_comm. rewrite N.testbit_0_r. reflexivity.
    - replace n with (N.succ (N.pred n)) at 1 by lia. rewrite N.add_comm, N.testbit_succ_r, IH.
      replace (N.to_nat n) with (S (N.to_nat (N.pred n))) by lia. reflexivity. }
  rewrite G. unfold byte_bits. destruct (Nat.ltb_spec (N.to_nat n) 8) as [L|L].
  - rewrite (nth_indep _ false (N.testbit b (N.of_nat 0))) by (rewrite map_length, seq_length; exact L).
    rewrite map_nth with (f := fun i => N.testbit b (N.of_nat i)). rewrite seq_nth by exact L. rewrite Nat.add_0_l, N2Nat.id. reflexivity.
  - rewrite nth_overflow by (rewrite map_length, seq_length; exact L). symmetry. destruct (N.eq_dec b 0) as [->|Hb]; [apply N.bits_0|].
    apply N.bits_above_log2. unfold is_byte in H. assert (N.log2 b < 8)%N by (apply N.log2_lt_pow2; [lia|exact H]). lia.
Qed.
Lemma fips_shake v m i : is_bytes m -> FIPS202 v m i = shake permute_24rounds v m i.
Proof.
  intros Hm. unfold FIPS202. rewrite <- shake_is_fips by exact Hm. rewrite seq_app, map_app, bits_app. cbn [seq map]. rewrite Nat.add_0_l.
  assert (L : 8 * i = length (bits_of (map (shake permute_24rounds v m) (seq 0 i)))) by (rewrite bits_length, map_length, seq_length; reflexivity).
  rewrite L, skipn_app, Nat.sub_diag, skipn_all. cbn [app skipn]. unfold bits_of. cbn [map concat]. rewrite app_nil_r.
  rewrite firstn_all2 by (unfold byte_bits; rewrite map_length, seq_length; lia). apply bits_num_byte. apply shake_is_byte; [intros; apply permute_bytes|exact Hm].
Qed.
Lemma squeezes_pieces v m : is_bytes m -> forall lens off, squeezes FIPS202 (mkCtx v m (Some off)) lens = pieces (shake permute_24rounds v m) off lens.
Proof.
  intros Hm. induction lens as [|n lens IH]; intros off; [reflexivity|]. cbn [squeezes pieces hash_squeeze h_v h_in h_off]. rewrite IH. f_equal.
  unfold stream. apply map_ext. intros i. rewrite fips_shake by exact Hm. apply N.mod_small. apply shake_is_byte; [intros; apply permute_bytes|exact Hm].
Qed.
Lemma calls_pieces digest chunks lens : Forall is_bytes chunks ->
  hash_calls FIPS202 digest chunks lens = pieces (shake permute_24rounds (digest =? 32) (concat chunks)) 0 lens.
Proof.
  intros H. unfold hash_calls. rewrite fold_update by reflexivity. unfold hash_final. cbn [hash_init h_v h_in h_off app]. apply squeezes_pieces. apply KeccakHash.concat_bytes. exact H.
Qed.

(** four *)
Lemma fold_x4 : forall chunks a b c d, Forall (fun ds : list bytes => length ds = 4) chunks ->
  fold_left hash_update_x4_4 chunks [a; b; c; d] =
  [fold_left hash_update (map (fun ds => nth 0 ds []) chunks) a; fold_left hash_update (map (fun ds => nth 1 ds []) chunks) b;
   fold_left hash_update (map (fun ds => nth 2 ds []) chunks) c; fold_left hash_update (map (fun ds => nth 3 ds []) chunks) d].
Proof.
  induction chunks as [|ds chunks IH]; intros a b c d H; [reflexivity|]. inversion_clear H as [|? ? H1 H2].
  destruct ds as [|x0 [|x1 [|x2 [|x3 [|]]]]]; try discriminate H1. cbn [fold_left map nth]. unfold hash_update_x4_4 at 2. cbn [combine map fst snd]. apply IH. exact H2.
Qed.
Lemma squeezes_four H : forall lens a b c d i, i < 4 -> map (fun o => nth i o []) (squeezes_x4 H [a; b; c; d] lens) = squeezes H (nth i [a; b; c; d] a) lens.
Proof.
  induction lens as [|n lens IH]; intros a b c d i I; [reflexivity|]. cbn [squeezes_x4 hash_squeeze_x4 map snd fst hash_squeeze squeezes].
  rewrite IH by exact I. destruct i as [|[|[|[|]]]]; [| | | |lia]; cbn [nth]; match goal with |- context [hash_squeeze H ?z n] => destruct (hash_squeeze H z n) end; reflexivity.
Qed.
Lemma squeezes_x4_len H : forall lens c, length c = 4 -> Forall (fun o : list bytes => length o = 4) (squeezes_x4 H c lens).
Proof.
  induction lens as [|n lens IH]; intros c L; [constructor|]. cbn [squeezes_x4 hash_squeeze_x4]. constructor; [rewrite map_length; exact L|]. apply IH. rewrite map_length. exact L.
Qed.
Lemma lanes_eq : forall (x y : list (list bytes)), Forall (fun o => length o = 4) x -> Forall (fun o => length o = 4) y ->
  (forall i, i < 4 -> map (fun o => nth i o []) x = map (fun o => nth i o []) y) -> x = y.
Proof.
  induction x as [|a x IH]; intros y X Y H.
  - specialize (H 0 ltac:(lia)). destruct y; [reflexivity|discriminate].
  - destruct y as [|b y]; [specialize (H 0 ltac:(lia)); discriminate|]. inversion_clear X as [|? ? X1 X2]. inversion_clear Y as [|? ? Y1 Y2]. f_equal.
    + apply (nth_ext _ _ [] []); [exact (eq_trans X1 (eq_sym Y1))|]. intros i I. assert (I4 : i < 4) by (rewrite <- X1; exact I). specialize (H i I4). cbn [map] in H. congruence.
    + apply IH; [assumption|assumption|]. intros i I. specialize (H i I). cbn [map] in H. congruence.
Qed.
Lemma squeezes_k_len f (f_len : forall st : bytes, length st = 200 -> length (f st) = 200) fuel : forall lens k os, okq k ->
  k_squeezes_x4 f fuel k lens = Ok os -> Forall (fun o => length o = 4) os.
Proof.
  induction lens as [|n lens IH]; intros k os Q E; cbn [k_squeezes_x4] in E; [inversion E; constructor|].
  apply bind_ok in E. destruct E as ([o k'] & E1 & E). apply bind_ok in E. destruct E as (os' & E2 & E). inversion E; subst os. clear E.
  unfold k_hash_squeeze_x4 in E1. apply bind_ok in E1. destruct E1 as ([o1 s1] & E0 & E1). inversion E1; subst. clear E1.
  destruct (squeeze4_lanes f f_len fuel (kq_sponge k) (bits_bytes n) Q) as [P _]. destruct (P _ E0) as [P1 (L & P2)]. cbn [fst snd] in *.
  constructor; [apply P2|]. eapply IH; [|exact E2]. exact P1.
Qed.
Lemma run_x4_len f (f_len : forall st : bytes, length st = 200 -> length (f st) = 200) fuel digest chunks lens os :
  Forall (fun ds => exists L, quad L ds) chunks -> hash_run_x4 f fuel digest chunks lens = Ok os -> Forall (fun o => length o = 4) os.
Proof.
  intros F E. unfold hash_run_x4 in E. destruct (init4_ok digest) as (k & Ek & Q). rewrite Ek in E.
  apply bind_ok in E. destruct E as (k1 & E1 & E). apply bind_ok in E. destruct E as (k2 & E2 & E).
  destruct (updates4 f f_len fuel chunks k Q F) as [P1 _]. destruct (final4_lanes f f_len fuel k1 (P1 _ E1)) as [P2 _].
  eapply squeezes_k_len; [exact f_len|exact (P2 _ E2)|exact E].
Qed.
Definition fours (chunks : list (list bytes)) : Prop :=
  Forall (fun ds => length ds = 4 /\ Forall is_bytes ds /\ exists L, Forall (fun d => length d = L) ds /\ (N.of_nat L + 200 <= 2 ^ 32)%N) chunks.
Lemma calls_x4 digest chunks lens : fours chunks -> Forall (fun n => (N.of_nat n + 200 <= 2 ^ 32)%N) lens ->
  exists fuel0, forall fuel, fuel0 <= fuel -> hash_run_x4 permute_24rounds fuel digest chunks lens = Ok (hash_calls_x4 FIPS202 digest chunks lens).
Proof.
  intros C L. unfold fours in C.
  destruct (four_outputs' permute_24rounds permute_keeps digest chunks lens) as (fuel0 & H); [|exact L|].
  { eapply Forall_impl; [|exact C]. cbn beta. intros ds (A & _ & B). split; assumption. }
  exists fuel0. intros fuel Hf. destruct (H fuel Hf) as (os & E & O). rewrite E. f_equal. apply lanes_eq.
  - apply (run_x4_len permute_24rounds permute_keeps fuel digest chunks lens os); [|exact E]. eapply Forall_impl; [|exact C]. intros ds (A & _ & L0 & B & _). exists L0. split; assumption.
  - apply squeezes_x4_len. unfold hash_final_x4. change (hash_init_x4 digest) with [hash_init digest; hash_init digest; hash_init digest; hash_init digest].
    rewrite fold_x4; [reflexivity|]. eapply Forall_impl; [|exact C]. cbn beta. intros ds (A & _). exact A.
  - intros i I. rewrite (O i I). unfold hash_calls_x4, hash_final_x4. change (hash_init_x4 digest) with [hash_init digest; hash_init digest; hash_init digest; hash_init digest].
    rewrite fold_x4 by (eapply Forall_impl; [|exact C]; cbn beta; intros ds (A & _); exact A). cbn [map]. rewrite squeezes_four by exact I.
    rewrite <- calls_pieces.
    + unfold hash_calls, hash_final. destruct i as [|[|[|[|]]]]; [reflexivity|reflexivity|reflexivity|reflexivity|lia].
    + apply Forall_map. eapply Forall_impl; [|exact C]. cbn beta. intros ds (A & B & _). rewrite Forall_forall in B. apply B. apply nth_In. exact (eq_ind 4 (fun k => i < k) I _ (eq_sym A)).
Qed.

Lemma build_scalar P size R (SIM : simulates P size R permute_24rounds) : forall m digest chunks lens, length m = size -> Forall is_bytes chunks ->
  Forall (fun d => (N.of_nat (length d) + 200 <= 2 ^ 32)%N) chunks -> Forall (fun n => (N.of_nat n + 200 <= 2 ^ 32)%N) lens ->
  exists fuel0, forall fuel, fuel0 <= fuel -> g_hash_run P m fuel digest chunks lens = Ok (hash_calls FIPS202 digest chunks lens).
Proof.
  intros m digest chunks lens Hm Hb Hc Hl. destruct (run_ok permute_24rounds permute_keeps digest chunks lens Hc Hl) as (fuel0 & H). exists fuel0. intros fuel Hf.
  rewrite calls_pieces by exact Hb. exact (sim_hash_run P size R _ SIM m fuel digest chunks lens _ Hm Hb (Forall_impl _ (fun d => chunk_small d) Hc) (H fuel Hf)).
Qed.
Lemma build_four Q size R (SIM : simulates4 Q size R permute_24rounds) : forall m digest chunks lens, length m = size -> fours chunks ->
  Forall (fun n => (N.of_nat n + 200 <= 2 ^ 32)%N) lens ->
  exists fuel0, forall fuel, fuel0 <= fuel -> g_hash_run_x4 Q m fuel digest chunks lens = Ok (hash_calls_x4 FIPS202 digest chunks lens).
Proof.
  intros m digest chunks lens Hm Hc Hl. destruct (calls_x4 digest chunks lens Hc Hl) as (fuel0 & H). exists fuel0. intros fuel Hf.
  refine (sim4_hash_run Q size R _ SIM m fuel digest chunks lens _ Hm _ (H fuel Hf)).
  eapply Forall_impl; [|exact Hc]. cbn beta. intros ds (A & B & _). split; assumption.
Qed.
Lemma both_builds {A B} {x : nat -> res A} {y : nat -> res B} {a b} :
  (exists f0, forall f, f0 <= f -> x f = Ok a) -> (exists f0, forall f, f0 <= f -> y f = Ok b) -> exists f0, forall f, f0 <= f -> x f = Ok a /\ y f = Ok b.
Proof. intros [f0 X] [f1 Y]. exists (f0 + f1). intros f F. split; [apply X|apply Y]; lia. Qed.
Definition eqb2 (x y : list bytes) : bool := if list_eq_dec (list_eq_dec N.eq_dec) x y then true else false.
Lemma refl2 x : eqb2 x x = true.
Proof. unfold eqb2. destruct (list_eq_dec (list_eq_dec N.eq_dec) x x); [reflexivity|contradiction]. Qed.
Lemma empty_calls : hash_calls FIPS202 32 [] [2; 3] = [[0x7F; 0x9C]%N; [0x2B; 0xA4; 0xE8]%N].
Proof.
  assert (E : pieces (shake permute_24rounds true []) 0 [2; 3] = [[0x7F; 0x9C]%N; [0x2B; 0xA4; 0xE8]%N]) by (vm_compute; reflexivity).
  rewrite calls_pieces by constructor. exact E.
Qed.
Lemma two_inputs : hash_calls FIPS202 64 [[1%N]] [3] <> hash_calls FIPS202 64 [[2%N]] [3].
Proof.
  assert (E : eqb2 (pieces (shake permute_24rounds false [1%N]) 0 [3]) (pieces (shake permute_24rounds false [2%N]) 0 [3]) = false) by (vm_compute; reflexivity).
  rewrite !calls_pieces by (repeat constructor). cbn [concat app]. change (64 =? 32) with false. intros C. rewrite C in E. rewrite refl2 in E. discriminate E.
Qed.
