(** Signing with a key pair whose halves do not belong together (C61). *)
From Coq Require Import Arith NArith List Bool Lia.
From Verif Require Import Prelude FieldModel FieldSpec FieldApi FieldLin PolyModel Instances HashModel TreeModel TreeSpec TreeProofs TreeExpand TreeApi TreeRev AesSpec AesModel AesBase AesApi AesShares BanquetModel ContainerModel ListSum BanquetHash BanquetPure BanquetPoly BanquetVerify BanquetCtx BanquetRun BanquetApi ChallengeFacts TapeFacts HashFacts Serialize SerialFacts ShareFacts SigSpec VerifyTree VerifyFacts VerifyOutcome AcceptFacts AlterFacts KeygenFacts ZeroKey FreeSpec.
Import ListNotations.

Lemma regular_rounds I : regular I -> 0 < num_rounds I.
Proof. intros HB. exact (rg_rounds _ HB). Qed.
Section Wrong.
Variables (H : oracle) (I : instance) (c : fctx).
Hypothesis HB : regular I.
Hypothesis Hc : init_extension_field (lambda I) = Ok c.
Let OK := inst_with I c HB Hc.
Notation T := (num_rounds I).
Notation n := (num_parties I).

Lemma contexts_hash fuel garb pk sig msg ctx1 ctx3 X : sig_shape I sig -> str (2 * pt_size I) pk -> 1 <= fuel ->
  verify_contexts H I c fuel garb pk sig msg = Ok (ctx1, ctx3) -> is_transcript H I c pk sig X ->
  h_in ctx1 = h1_input I (s_salt sig) pk msg (pf_of sig) X.
Proof.
  intros SS Hpk Hf E TR. destruct (regular_pow2 I HB) as (k0 & HP & Hk8).
  destruct (phase_2_expand H I c fuel (h2_of H I sig) (get_first_n_field_elements c (m2 I))) as [l|x|u|] eqn:EP.
  2,3: exfalso; assert (N1 : 1 <= n) by (pose proof (n_pos I c _ OK); lia); destruct (phase_2_outcome H I N1 c Hc fuel (h2_of H I sig)) as [Z|(l & Z & _)];
    [apply (points_ok I c _ OK); lia|rewrite EP in Z; discriminate Z|rewrite EP in Z; discriminate Z].
  2:{ rewrite (contexts_stuck H I c _ k0 OK HP Hk8 sig pk SS Hpk fuel garb msg EP) in E. discriminate E. }
  destruct (all_or_one (fun e => snd (p_reveal (pf_of sig e)) =? hidden_of H I sig e) T) as [A|(e & He & A)].
  2:{ apply Nat.eqb_neq in A. rewrite (contexts_step H I c _ k0 OK HP Hk8 sig pk SS Hpk fuel garb msg l Hf EP) in E; [discriminate E|exists e; auto]. }
  destruct (lagr1 I c _ OK) as [pre1 G1]. destruct (lagr2 I c _ OK) as [pre2 G2].
  destruct (contexts_X H I c _ OK sig pk SS Hpk k0 HP Hk8 X fuel garb msg l Hf TR EP ltac:(intros e He; rewrite (ro_hidden _ _ _ _ _ _ _ _ _ _ _ (tr_reps _ _ _ _ _ _ TR e He)); apply Nat.eqb_eq; exact (A e He)) pre1 pre2 G1 G2) as (k1 & k3 & p1 & p3 & EC).
  rewrite E in EC. injection EC as -> ->. reflexivity.
Qed.
Lemma contexts_trans fuel garb pk sig msg ctx1 ctx3 : sig_shape I sig -> str (2 * pt_size I) pk -> 1 <= fuel ->
  verify_contexts H I c fuel garb pk sig msg = Ok (ctx1, ctx3) -> exists X, is_transcript H I c pk sig X.
Proof. intros SS Hpk Hf E. destruct (absorbed H I c HB Hc fuel garb pk sig msg ctx1 ctx3 SS Hpk Hf E) as (X & TR & _). exists X. exact TR. Qed.

Variables (key pt ct0 ct : bytes).
Hypothesis Hk : str (key_size (i_aes I)) key.
Hypothesis Hp : str (pt_size I) pt.
Hypothesis Hct0 : aes_n (nk_of I) key pt = Some ct0.
Hypothesis Hct : str (pt_size I) ct.
Notation pk := (pt ++ ct).
Notation pk0 := (pt ++ ct0).
Lemma pk_str x : str (pt_size I) x -> str (2 * pt_size I) (pt ++ x).
Proof. intros [A B]. split; [rewrite app_length, (proj1 Hp), A; lia|apply Forall_app; split; [apply Hp|exact B]]. Qed.
Lemma ct0_str : str (pt_size I) ct0.
Proof. destruct (valid_key I c _ key pt ct0 OK Hk Hp Hct0) as (s & t & KO). exact (BanquetRun.ct_str I c _ OK key pt ct0 s t KO). Qed.

Variables (fuel : nat) (garb : nat -> N) (st : fstate) (msg : bytes) (sig : signature).
Hypothesis ES : snd (sign H fuel garb st I (key, pk) msg) = Ok sig.

Lemma wrong_shape : sig_shape I sig.
Proof.
  apply (any_shape H I c _ OK key pt ct0 ct Hk Hp Hct0 (proj1 Hct) fuel garb st msg sig (fst (sign H fuel garb st I (key, pk) msg))).
  rewrite <- ES. destruct (sign H fuel garb st I (key, pk) msg); reflexivity.
Qed.
(** what the signer hashed is what verification with the right public key would hash, up to the public key itself *)
Lemma signer_hash : (exists X0, is_transcript H I c pk0 sig X0) /\
  forall X0, is_transcript H I c pk0 sig X0 -> digest H I (h1_input I (s_salt sig) pk msg (pf_of sig) X0) = s_h1 sig.
Proof.
  pose proof wrong_shape as SS. pose proof ES as E. unfold sign in E. rewrite (with_field_ok _ _ _ _ Hc) in E. cbn [snd] in E.
  destruct (valid_key I c _ key pt ct0 OK Hk Hp Hct0) as (s & t & KO). destruct (lagr1 I c _ OK) as [pre1 G1]. destruct (lagr2 I c _ OK) as [pre2 G2].
  destruct (any_run H I c _ OK pre1 pre2 G1 G2 key pt ct0 ct s t KO (proj1 Hct) msg fuel garb) as [[X _]|(D & sig' & X & RO)]; rewrite X in E; [discriminate E|]. injection E as ->.
  destruct (any_contexts H I c _ OK pre1 pre2 G1 G2 key pt ct0 ct s t KO (proj1 Hct) msg fuel garb D sig RO 1 garb msg) as [ctx3 EC].
  split; [exact (contexts_trans (fuel + 1) garb pk0 sig msg _ _ SS (pk_str _ ct0_str) ltac:(lia) EC)|].
  intros X0 TR. pose proof (contexts_hash (fuel + 1) garb pk0 sig msg _ _ X0 SS (pk_str _ ct0_str) ltac:(lia) EC TR) as Q.
  pose proof (ro_sig _ _ _ _ _ _ _ _ _ _ _ _ _ _ _ _ RO) as Sg. unfold ctx_of, in1, h1_input in Q. cbn [h_in] in Q. change HASH_PREFIX_1 with 1%N in Q. apply app_inv_head in Q.
  replace (sg_salt H I key pt ct msg) with (s_salt sig) in Q by (rewrite Sg; reflexivity). do 3 apply app_inv_head in Q.
  unfold digest, h1_input. rewrite <- Q. rewrite Sg. reflexivity.
Qed.
Theorem wrong_key : ct <> ct0 -> forall fuel2 garb2 st2, fuel <= fuel2 ->
  snd (verify H fuel2 garb2 st2 I pk sig msg) = Ok false \/
  (snd (verify H fuel2 garb2 st2 I pk sig msg) = Ok true /\ (exists X, is_transcript H I c pk sig X) /\ (exists X0, is_transcript H I c pk0 sig X0) /\
   forall X X0, is_transcript H I c pk sig X -> is_transcript H I c pk0 sig X0 ->
   collides (digest H I) (h1_input I (s_salt sig) pk msg (pf_of sig) X) (h1_input I (s_salt sig) pk msg (pf_of sig) X0)).
Proof.
  intros Ne fuel2 garb2 st2 Hf. pose proof wrong_shape as SS. destruct signer_hash as [EX SH].
  assert (V : exists b, snd (verify H fuel2 garb2 st2 I pk sig msg) = Ok b /\ (b = true -> exists X, is_transcript H I c pk sig X) /\ forall X, b = true -> is_transcript H I c pk sig X -> digest H I (h1_input I (s_salt sig) pk msg (pf_of sig) X) = s_h1 sig).
  { rewrite (snd_verify H I c Hc). pose proof ES as E. unfold sign in E. rewrite (with_field_ok _ _ _ _ Hc) in E. cbn [snd] in E.
    destruct (valid_key I c _ key pt ct0 OK Hk Hp Hct0) as (s & t & KO). destruct (lagr1 I c _ OK) as [pre1 G1]. destruct (lagr2 I c _ OK) as [pre2 G2].
    destruct (any_run H I c _ OK pre1 pre2 G1 G2 key pt ct0 ct s t KO (proj1 Hct) msg fuel garb) as [[X _]|(D & sig' & X & RO)]; rewrite X in E; [discriminate E|]. injection E as ->.
    replace fuel2 with (fuel + (fuel2 - fuel)) by lia.
    pose proof (any_verify H I c _ OK pre1 pre2 G1 G2 key pt ct0 ct s t KO (proj1 Hct) msg fuel garb D sig RO ct (fuel2 - fuel) garb2 msg (proj1 Hct)) as EV.
    pose proof (any_verify H I c _ OK pre1 pre2 G1 G2 key pt ct0 ct s t KO (proj1 Hct) msg fuel garb D sig RO ct (fuel2 - fuel + 1) garb2 msg (proj1 Hct)) as EV'.
    eexists. split; [exact EV|]. revert EV'. match goal with |- _ = Ok ?b -> _ => generalize b end. intros b EV'. rewrite <- (snd_verify H I c Hc (fuel + (fuel2 - fuel + 1)) garb2 st2) in EV'.
    destruct (acceptance H I c HB Hc (fuel + (fuel2 - fuel + 1)) garb2 st2 pk sig msg b SS (pk_str _ Hct) ltac:(clear; lia) EV') as [A B]. split; [intros _; exact A|]. intros X0 Q TR. apply (ac_h1 _ _ _ _ _ _ _ (proj1 (B X0 TR) Q)). }
  destruct V as (b & EV & EX' & A). rewrite EV. destruct b; [right|left; reflexivity]. split; [reflexivity|]. split; [apply EX'; reflexivity|]. split; [exact EX|].
  intros X X0 TR TR0. split; [|rewrite (A X eq_refl TR), (SH X0 TR0); reflexivity].
  intros Q. unfold h1_input in Q. do 4 apply app_inv_head in Q. apply Ne.
  assert (L1 : 0 < T) by (apply regular_rounds; exact HB).
  pose proof (concat_inj _ _ _ _ (fun i Hi => row1_len H I c pk sig X i SS TR Hi) (fun i Hi => row1_len H I c pk0 sig X0 i SS TR0 Hi) Q 0 L1) as R. cbv beta in R.
  assert (F : forall i, i < n -> length (x_com (X 0) i ++ x_out (X 0) i) = digest_size I + pt_size I) by (intros i Hi; rewrite app_length, (com_len H I c pk sig X 0 i SS TR L1 Hi), (out_len H I c pk sig X 0 i TR L1 Hi); reflexivity).
  assert (F0 : forall i, i < n -> length (x_com (X0 0) i ++ x_out (X0 0) i) = digest_size I + pt_size I) by (intros i Hi; rewrite app_length, (com_len H I c pk0 sig X0 0 i SS TR0 L1 Hi), (out_len H I c pk0 sig X0 0 i TR0 L1 Hi); reflexivity).
  apply app_inv_len in R; [|rewrite (concat_len _ _ _ F), (concat_len _ _ _ F0); reflexivity]. destruct R as [R _].
  pose proof (ro_cipher _ _ _ _ _ _ _ _ _ _ _ (tr_reps _ _ _ _ _ _ TR 0 L1)) as C1. pose proof (ro_cipher _ _ _ _ _ _ _ _ _ _ _ (tr_reps _ _ _ _ _ _ TR0 0 L1)) as C0.
  assert (Sl : forall x : bytes, length x = pt_size I -> slice (pt ++ x) (pt_size I) (pt_size I) = x).
  { intros x Lx. unfold slice. rewrite skipn_app, <- (proj1 Hp), skipn_all, Nat.sub_diag. cbn [skipn app]. rewrite (proj1 Hp), <- Lx. apply firstn_all. }
  rewrite (Sl ct (proj1 Hct)) in C1. rewrite (Sl ct0 (proj1 ct0_str)) in C0. rewrite <- C1, <- C0. f_equal. apply map_seq_ext. intros p Hpn.
  pose proof (concat_inj _ _ _ _ F F0 R p ltac:(lia)) as W. cbv beta in W. apply app_inv_len in W; [apply W|].
  rewrite (com_len H I c pk sig X 0 p SS TR L1), (com_len H I c pk0 sig X0 0 p SS TR0 L1) by lia. reflexivity.
Qed.
(** nor is the signature valid for the public key that belongs to the secret key *)
Theorem right_public_key : ct <> ct0 -> forall fuel2 garb2 st2, fuel <= fuel2 ->
  snd (verify H fuel2 garb2 st2 I pk0 sig msg) = Ok false \/
  (snd (verify H fuel2 garb2 st2 I pk0 sig msg) = Ok true /\ (exists X0, is_transcript H I c pk0 sig X0) /\
   forall X0, is_transcript H I c pk0 sig X0 ->
   collides (digest H I) (h1_input I (s_salt sig) pk0 msg (pf_of sig) X0) (h1_input I (s_salt sig) pk msg (pf_of sig) X0)).
Proof.
  intros Ne fuel2 garb2 st2 Hf. pose proof wrong_shape as SS. destruct signer_hash as [EX SH].
  assert (V : exists b, snd (verify H fuel2 garb2 st2 I pk0 sig msg) = Ok b /\ forall X, b = true -> is_transcript H I c pk0 sig X -> digest H I (h1_input I (s_salt sig) pk0 msg (pf_of sig) X) = s_h1 sig).
  { rewrite (snd_verify H I c Hc). pose proof ES as E. unfold sign in E. rewrite (with_field_ok _ _ _ _ Hc) in E. cbn [snd] in E.
    destruct (valid_key I c _ key pt ct0 OK Hk Hp Hct0) as (s & t & KO). destruct (lagr1 I c _ OK) as [pre1 G1]. destruct (lagr2 I c _ OK) as [pre2 G2].
    destruct (any_run H I c _ OK pre1 pre2 G1 G2 key pt ct0 ct s t KO (proj1 Hct) msg fuel garb) as [[X _]|(D & sig' & X & RO)]; rewrite X in E; [discriminate E|]. injection E as ->.
    replace fuel2 with (fuel + (fuel2 - fuel)) by lia.
    pose proof (any_verify H I c _ OK pre1 pre2 G1 G2 key pt ct0 ct s t KO (proj1 Hct) msg fuel garb D sig RO ct0 (fuel2 - fuel) garb2 msg (proj1 ct0_str)) as EV.
    pose proof (any_verify H I c _ OK pre1 pre2 G1 G2 key pt ct0 ct s t KO (proj1 Hct) msg fuel garb D sig RO ct0 (fuel2 - fuel + 1) garb2 msg (proj1 ct0_str)) as EV'.
    eexists. split; [exact EV|]. revert EV'. match goal with |- _ = Ok ?b -> _ => generalize b end. intros b EV'. rewrite <- (snd_verify H I c Hc (fuel + (fuel2 - fuel + 1)) garb2 st2) in EV'.
    destruct (acceptance H I c HB Hc (fuel + (fuel2 - fuel + 1)) garb2 st2 pk0 sig msg b SS (pk_str _ ct0_str) ltac:(clear; lia) EV') as [A B]. intros X0 Q TR. apply (ac_h1 _ _ _ _ _ _ _ (proj1 (B X0 TR) Q)). }
  destruct V as (b & EV & A). rewrite EV. destruct b; [right|left; reflexivity]. split; [reflexivity|]. split; [exact EX|].
  intros X0 TR0. split; [|rewrite (A X0 eq_refl TR0), (SH X0 TR0); reflexivity].
  intros Q. unfold h1_input in Q. do 2 apply app_inv_head in Q. apply app_inv_len in Q; [|rewrite (proj1 (pk_str _ Hct)), (proj1 (pk_str _ ct0_str)); reflexivity].
  destruct Q as [Q _]. apply app_inv_head in Q. apply Ne. symmetry. exact Q.
Qed.
End Wrong.

(** the ciphertext of a key without zero S-box inputs *)
Lemma true_ct I c key pt : inst_ok I c (nk_of I) -> str (key_size (i_aes I)) key -> str (pt_size I) pt ->
  ~ In 0%N (all_sbox_inputs (nk_of I) key (blocks (nk_of I) pt)) -> aes_n (nk_of I) key pt = Some (flat_map (cipher (nk_of I) key) (blocks (nk_of I) pt)).
Proof.
  intros OK Hk Hp Hz. pose proof (inst_aes_in I c _ _ _ OK Hk Hp) as Hin. destruct (aes_n (nk_of I) key pt) as [x|] eqn:E.
  - f_equal. exact (aes_correct _ _ _ _ Hin E).
  - exfalso. apply Hz. apply (aes_none _ _ _ Hin). exact E.
Qed.
Lemma wrong_returns H I c fuel garb st key pt ct msg : regular I -> init_extension_field (lambda I) = Ok c ->
  str (key_size (i_aes I)) key -> str (pt_size I) pt -> str (pt_size I) ct -> ~ In 0%N (all_sbox_inputs (nk_of I) key (blocks (nk_of I) pt)) -> 1 <= fuel ->
  (exists sig, snd (sign H fuel garb st I (key, pt ++ ct) msg) = Ok sig) \/
  (snd (sign H fuel garb st I (key, pt ++ ct) msg) = OutOfFuel /\ exists h2 k, forall i, i < fuel ->
     In (from_bytes (stream H (digest_size I =? 32) h2 ((k + i) * lambda I) (lambda I))) (get_first_n_field_elements c (m2 I))).
Proof.
  intros HB Hc Hk Hp Hct Hz Hf. pose proof (inst_with I c HB Hc) as OK.
  destruct (any_total H I c (nk_of I) OK key pt _ ct Hk Hp (true_ct I c key pt OK Hk Hp Hz) (proj1 Hct) fuel garb st msg) as [[E [[h2 E2]|[h3 E3]]]|E]; [right|exfalso|left; exact E].
  - split; [exact E|]. exists h2. exact (phase_2_stuck H I c _ fuel h2 OK E2).
  - exact (regular_phase3 H I fuel garb h3 HB Hf E3).
Qed.
Lemma zero_ub H I fuel garb st key pt ct msg : regular I -> str (key_size (i_aes I)) key -> str (pt_size I) pt -> str (pt_size I) ct ->
  In 0%N (all_sbox_inputs (nk_of I) key (blocks (nk_of I) pt)) -> snd (sign H fuel garb st I (key, pt ++ ct) msg) = UB OutOfBounds.
Proof.
  intros HB Hk Hp Hct Hz. destruct (regular_inst_ok I HB) as [c OK].
  exact (zero_sign H I c _ OK key pt ct Hk Hp (proj1 Hct) Hz msg fuel garb st (regular_rounds I HB)).
Qed.
