(** A byte string that banquet_verify accepts under two parameter sets, for a hash function whose output bytes are all 64 (the
    case of PropCross). *)
From Coq Require Import Arith NArith ZArith List Bool Lia.
From Verif Require Import Prelude FieldModel FieldSpec FieldApi Instances HashModel BanquetModel BanquetVerify Serialize BanquetApi SerialFacts ChallengeFacts SigSpec AcceptFacts VerifyCases FreeSpec PropSign AesShares CrossFacts.
Import ListNotations.

Definition zero_proof (I : instance) : rep_proof :=
  mkProof (repeat (zeros (seed_size I)) (ceil_log2_nat (num_parties I)), 0) (zeros (digest_size I)) (zeros (key_size (i_aes I))) (zeros (num_sboxes (i_aes I)))
    (repeat 0%N (m2 I + 1)) 0%N (repeat 0%N (m1 I)) (repeat 0%N (m1 I)).
Definition zero_sig (I : instance) : signature :=
  mkSig (repeat 64%N 32) (repeat 64%N (digest_size I)) (repeat 64%N (digest_size I)) (repeat (zero_proof I) (num_rounds I)).

Lemma str_repeat k (b : N) : (b < 256)%N -> str k (repeat b k).
Proof. intros B. split; [apply repeat_length|]. apply Forall_forall. intros x Hx. apply repeat_spec in Hx. subst. exact B. Qed.
Lemma Forall_repeat {A} (P : A -> Prop) x k : P x -> Forall P (repeat x k).
Proof. intros Px. apply Forall_forall. intros y Hy. apply repeat_spec in Hy. subst. exact Px. Qed.
Lemma zero_elt lam : elt lam 0%N.
Proof. unfold elt. apply N.neq_0_lt_0, N.pow_nonzero. discriminate. Qed.
Lemma zero_proof_shape I : proof_shape I (zero_proof I).
Proof.
  constructor; cbn [zero_proof p_reveal p_C p_sk_delta p_t_delta p_P_delta p_P_at_R p_S_at_R p_T_at_R fst snd]; try apply repeat_length;
    try (apply str_repeat; reflexivity); try apply zero_elt; try (split; [apply repeat_length|apply Forall_repeat; apply zero_elt]).
  intros s Hs. apply repeat_spec in Hs. subst. apply str_repeat. reflexivity.
Qed.
Lemma zero_sig_shape I : sig_shape I (zero_sig I).
Proof.
  constructor; cbn [zero_sig s_salt s_h1 s_h3 s_proofs]; try (apply str_repeat; reflexivity); [apply repeat_length|]. apply Forall_repeat, zero_proof_shape.
Qed.

(** everything behind the header is zero *)
Notation Z0 := (Forall (fun b : N => b = 0%N)).
Lemma z_concat (l : list bytes) : Forall Z0 l -> Z0 (concat l).
Proof. induction 1; cbn [concat]; [constructor|]. apply Forall_app. split; assumption. Qed.
Lemma z_tb k : Z0 (to_bytes k 0%N).
Proof. unfold to_bytes. change (w64 0) with 0%N. induction k; cbn [le_bytes]; constructor; [reflexivity|exact IHk]. Qed.
Lemma z_zeros k : Z0 (zeros k).
Proof. apply Forall_repeat. reflexivity. Qed.
Lemma z_elems lam k : Z0 (concat (map (to_bytes lam) (repeat 0%N k))).
Proof. apply z_concat, Forall_map, Forall_repeat, z_tb. Qed.
Lemma z_proof I : Z0 (enc_proof I (zero_proof I)).
Proof.
  unfold enc_proof, zero_proof. cbn [p_reveal p_C p_sk_delta p_t_delta p_P_delta p_P_at_R p_S_at_R p_T_at_R fst snd].
  repeat (apply Forall_app; split); try apply z_zeros; try apply z_elems; try apply z_tb. apply z_concat, Forall_repeat, z_zeros.
Qed.
Lemma z_all l : Z0 l -> l = repeat 0%N (length l).
Proof. induction 1; cbn [length repeat]; [reflexivity|]. subst. f_equal. assumption. Qed.
Lemma enc_zero I c : init_extension_field (lambda I) = Ok c -> digest_size I = 32 ->
  exists k, enc_sig I (zero_sig I) = repeat 64%N 96 ++ repeat 0%N k /\ length (enc_sig I (zero_sig I)) = sig_size I.
Proof.
  intros Hc D. destruct (serialize_ok I c Hc _ (zero_sig_shape I)) as (_ & L & _). exists (length (concat (map (enc_proof I) (s_proofs (zero_sig I))))). split; [|exact L].
  unfold enc_sig at 1. cbn [zero_sig s_salt s_h1 s_h3]. rewrite D. change (repeat 64%N 96) with (repeat 64%N 32 ++ repeat 64%N 32 ++ repeat 64%N 32). rewrite <- !app_assoc. do 3 f_equal.
  apply z_all. apply z_concat, Forall_map, Forall_repeat, z_proof.
Qed.

Lemma stream_same v d m o k : (v < 256)%N -> stream (same v) d m o k = repeat v k.
Proof. intros Hv. unfold stream, same. rewrite N.mod_small by exact Hv. revert o. induction k; intros o; cbn [seq map repeat]; [reflexivity|]. f_equal. apply IHk. Qed.
Lemma repeat_nth {A} (x d : A) k e : e < k -> nth e (repeat x k) d = x.
Proof. intros L. apply (repeat_spec k). apply nth_In. rewrite repeat_length. exact L. Qed.
Lemma xsum_zero l : Z0 l -> xsum l = 0%N.
Proof. induction 1; cbn; [reflexivity|]. subst. exact IHForall. Qed.
(** accepted whatever the message and public key *)
Definition point64 (I : instance) (c : fctx) : Prop := forbidden I c (from_bytes (repeat 64%N (lambda I))) = false.
Lemma zero_accepted I c : regular I -> init_extension_field (lambda I) = Ok c -> num_parties I = 64 -> point64 I c ->
  forall fuel garb st pk msg, str (2 * pt_size I) pk -> 1 <= fuel -> snd (verify (same 64) fuel garb st I pk (zero_sig I) msg) = Ok true.
Proof.
  intros HB Hc N64 P64 fuel garb st pk msg Hpk Hf. pose proof (zero_sig_shape I) as SS. pose proof (outcomes (same 64) I c HB Hc fuel garb st pk _ msg SS Hpk Hf) as O.
  destruct (snd (verify (same 64) fuel garb st I pk (zero_sig I) msg)) as [b|x|u|] eqn:E; [| |destruct O|].
  - f_equal. destruct (acceptance (same 64) I c HB Hc fuel garb st pk _ msg b SS Hpk Hf E) as [[X TR] A]. apply (A X TR). constructor.
    + unfold digest. rewrite stream_same by reflexivity. reflexivity.
    + unfold digest. rewrite stream_same by reflexivity. reflexivity.
    + intros e He. unfold pf_of, zero_sig. cbn [s_proofs]. rewrite repeat_nth by exact He. cbn [zero_proof p_S_at_R p_T_at_R p_P_at_R]. apply xsum_zero, Forall_map, Forall_forall.
      intros j Hj. apply in_seq in Hj. rewrite !repeat_nth by lia. apply (api_laws (lambda I) c Hc 0%N 0%N 0%N); apply zero_elt.
  - exfalso. destruct O as [_ (e & He & Ne)]. apply Ne. unfold pf_of, zero_sig, hidden_of. cbn [s_proofs s_h3]. rewrite repeat_nth by exact He. rewrite N64. reflexivity.
  - exfalso. destruct O as [k O]. specialize (O 0 Hf). unfold candidate in O. rewrite stream_same in O by reflexivity. unfold point64 in P64. rewrite P64 in O. discriminate O.
Qed.

Lemma map_const {A} (a : A) o m : map (fun _ : nat => a) (seq o m) = repeat a m.
Proof. revert o. induction m; intros o; cbn [seq map repeat]; [reflexivity|]. f_equal. apply IHm. Qed.
Lemma map_rep {A B} (f : A -> B) x m : map f (repeat x m) = repeat (f x) m.
Proof. induction m; cbn [map repeat]; [reflexivity|]. f_equal. exact IHm. Qed.
(** one byte string, two parameter sets *)
Definition I2 : instance := nth 2 instances I1.
Lemma two_sets : exists c ser,
  init_extension_field (lambda I1) = Ok c /\ init_extension_field (lambda I2) = Ok c /\ is_bytes ser /\
  (forall fuel garb, 1 <= fuel -> deserialize (same 64) fuel garb (Some c) I1 ser = Ok (zero_sig I1) /\ deserialize (same 64) fuel garb (Some c) I2 ser = Ok (zero_sig I2)) /\
  forall fuel garb st pk msg, str 32 pk -> 1 <= fuel ->
    snd (verify (same 64) fuel garb st I1 pk (zero_sig I1) msg) = Ok true /\ snd (verify (same 64) fuel garb st I2 pk (zero_sig I2) msg) = Ok true.
Proof.
  destruct I1_field as [c Hc]. assert (Hc2 : init_extension_field (lambda I2) = Ok c) by exact Hc.
  assert (R1 : regular I1) by (apply builtin_regular, I1_builtin). assert (R2 : regular I2) by (apply builtin_regular; exists 2%Z; reflexivity).
  destruct (enc_zero I1 c Hc eq_refl) as (k1 & E1 & L1). destruct (enc_zero I2 c Hc2 eq_refl) as (k2 & E2 & L2).
  destruct (serialize_ok I1 c Hc _ (zero_sig_shape I1)) as (_ & _ & B1). destruct (serialize_ok I2 c Hc2 _ (zero_sig_shape I2)) as (_ & _ & B2).
  exists c, (enc_sig I2 (zero_sig I2)). split; [exact Hc|]. split; [exact Hc2|]. split; [exact B2|].
  assert (P64 : point64 I1 c /\ point64 I2 c).
  { injection Hc as <-. split; vm_compute; reflexivity. }
  split.
  - intros fuel garb Hf. assert (RT : forall I, regular I -> init_extension_field (lambda I) = Ok c -> num_parties I = 64 -> deserialize (same 64) fuel garb (Some c) I (enc_sig I (zero_sig I)) = Ok (zero_sig I)).
    { intros I R HI N64. destruct (api_roundtrip (same 64) fuel garb I (Some c) (zero_sig I) R) as (ser & ES & ED).
      - unfold st_init. rewrite HI. reflexivity.
      - apply zero_sig_shape.
      - destruct (regular_pow2 I R) as (k0 & HP & Hk8). rewrite (party_challenges_pow2 (same 64) I k0 fuel garb _ HP Hk8 Hf). f_equal. rewrite N64. cbn [zero_sig s_proofs].
        unfold same. change (N.to_nat ((64 mod 256) mod N.of_nat 64)) with 0. rewrite map_const, map_rep. reflexivity.
      - destruct (serialize_ok I c HI _ (zero_sig_shape I)) as (ES' & _). rewrite ES in ES'. injection ES' as ->. exact ED. }
    split; [|apply (RT I2 R2 Hc2); reflexivity].
    assert (LE : (sig_size I1 <=? sig_size I2) = true). { vm_compute. reflexivity. } apply Nat.leb_le in LE.
    assert (HN : 1 <= num_parties I1) by (change (num_parties I1) with 64; lia). rewrite (deserialize_long I1 c Hc (same 64) fuel garb HN (enc_sig I2 (zero_sig I2)) B2) by (rewrite L2; exact LE).
    rewrite <- (RT I1 R1 Hc eq_refl). refine (f_equal (fun b => deserialize (same 64) fuel garb (Some c) I1 b) _). rewrite <- L1. rewrite E1 in *. rewrite E2 in *. rewrite !app_length, !repeat_length in *. rewrite firstn_app, firstn_all2 by (rewrite repeat_length; lia).
    f_equal. rewrite repeat_length. replace (96 + k1 - 96) with k1 by lia. assert (K : k1 <= k2) by lia. clear - K. revert k2 K. induction k1; intros k2 K; [reflexivity|]. destruct k2; [lia|]. cbn [repeat firstn]. f_equal. apply IHk1. lia.
  - intros fuel garb st pk msg Hpk Hf. split; [apply (zero_accepted I1 c R1 Hc eq_refl (proj1 P64))|apply (zero_accepted I2 c R2 Hc2 eq_refl (proj2 P64))]; assumption.
Qed.
