(** Lengths of what aes_N_s_shares writes, for all contents of its inputs *)
From Coq Require Import Arith NArith List Bool Lia.
From Verif Require Import Prelude AesModel Instances BanquetModel FreeSpec.
Import ListNotations.

Lemma xor128_len a b n : length a = n -> length b = n -> length (xor128 a b) = n.
Proof. apply xorl_length_eq. Qed.
Lemma dword_len a i : length a = 16 -> i < 4 -> length (dword a i) = 4.
Proof. intros L Hi. apply slice_length. lia. Qed.
Lemma shuffle_all_len a i : length a = 16 -> i < 4 -> length (shuffle_all a i) = 16.
Proof. intros L Hi. unfold shuffle_all. rewrite !app_length, dword_len by assumption. reflexivity. Qed.
Lemma slli4_len a : length a = 16 -> length (slli4 a) = 16.
Proof. intros L. unfold slli4. rewrite app_length, firstn_length, L. reflexivity. Qed.
Lemma pd0_len a b : length a = 16 -> length b = 16 -> length (shuffle_pd0 a b) = 16.
Proof. intros L L'. unfold shuffle_pd0. rewrite app_length, !firstn_length, L, L'. reflexivity. Qed.
Lemma pd1_len a b : length a = 16 -> length b = 16 -> length (shuffle_pd1 a b) = 16.
Proof. intros L L'. unfold shuffle_pd1. rewrite app_length, skipn_length, firstn_length, L, L'. reflexivity. Qed.
Lemma insert_len a v i : length (insert_epi8 a v i) = length a.
Proof. apply upd_length. Qed.
Lemma ka192_len a b d : length a = 16 -> length b = 16 -> length d = 16 ->
  length (fst (KEY_192_ASSIST a b d)) = 16 /\ length (snd (KEY_192_ASSIST a b d)) = 16.
Proof.
  intros La Lb Ld. unfold KEY_192_ASSIST. cbn [fst snd].
  split; repeat first [apply xor128_len|apply slli4_len|apply shuffle_all_len|assumption|lia].
Qed.
Lemma ka1_len a b : length a = 16 -> length b = 16 -> length (KEY_256_ASSIST_1 a b) = 16.
Proof. intros La Lb. unfold KEY_256_ASSIST_1. repeat first [apply xor128_len|apply slli4_len|apply shuffle_all_len|assumption|lia]. Qed.
Lemma ka2_len a b : length a = 16 -> length b = 16 -> length (KEY_256_ASSIST_2 a b) = 16.
Proof. intros La Lb. unfold KEY_256_ASSIST_2. repeat first [apply xor128_len|apply slli4_len|apply shuffle_all_len|assumption|lia]. Qed.
Lemma write_len s o d s' : write s o d = Ok s' -> length s' = length s.
Proof.
  unfold write. destruct (Nat.leb_spec (o + length d) (length s)); intros E; [|discriminate]. injection E as <-.
  rewrite !app_length, firstn_length, skipn_length. lia.
Qed.
Lemma restore_byte_len t m src st x st' : restore_byte t m src st = Ok (x, st') -> length (snd st') = length (snd st).
Proof.
  unfold restore_byte. destruct st as [k s]. intros E. apply bind_ok in E as (s' & E1 & E). apply bind_ok in E as (tb & E2 & E).
  injection E as <- <-. cbn [snd]. exact (write_len _ _ _ _ E1).
Qed.
Lemma restore_len t m srcs dst affine rc st k st' : key_exp_restore t m srcs dst affine rc st = Ok (k, st') ->
  length k = 16 /\ length (snd st') = length (snd st).
Proof.
  unfold key_exp_restore. intros E.
  apply bind_ok in E as ([b0 s0] & E0 & E). apply bind_ok in E as ([b1 s1] & E1 & E).
  apply bind_ok in E as ([b2 s2] & E2 & E). apply bind_ok in E as ([b3 s3] & E3 & E). injection E as <- <-.
  apply restore_byte_len in E0, E1, E2, E3. rewrite !insert_len. split; [reflexivity|congruence].
Qed.
Lemma restore128_len t m affine rc st k st' : length m = 16 -> AES_128_key_exp_restore t m affine rc st = Ok (k, st') ->
  length k = 16 /\ length (snd st') = length (snd st).
Proof.
  unfold AES_128_key_exp_restore. intros L E. apply bind_ok in E as ([g s0] & E0 & E). injection E as <- <-.
  apply restore_len in E0 as [L0 L1]. split; [|exact L1].
  repeat first [apply xor128_len|apply slli4_len|apply shuffle_all_len|assumption|lia].
Qed.
Lemma ok_pair {A B} (a a' : A) (b b' : B) : Ok (a, b) = Ok (a', b') -> a = a' /\ b = b'.
Proof. intros E. injection E. auto. Qed.
Lemma rotl_len a k : length (rotl_epi8 a k) = 16.
Proof. assert (O : forall x y, length (orl x y) = min (length x) (length y)) by (induction x; destruct y; cbn; auto).
  unfold rotl_epi8. rewrite O. unfold slli_epi8, srli_epi8, and_set1. rewrite !map_length.
  unfold slli_epi32, srli_epi32, columns. rewrite !app_length, !le_bytes_length. reflexivity. Qed.
Lemma shuffle_len a l : length (shuffle_epi8 a l) = length l.
Proof. apply map_length. Qed.
Lemma restore_t_len first t m st m' st' : restore_t_shares first t m st = Ok (m', st') -> length m' = 16 /\ length (snd st') = length (snd st).
Proof.
  unfold restore_t_shares. destruct st as [k s]. intros E. apply bind_ok in E as (s' & E1 & E). apply bind_ok in E as (tb & E2 & E).
  apply ok_pair in E as [E Es]. rewrite <- E, <- Es. cbn [snd]. split; [|exact (write_len _ _ _ _ E1)]. clear.
  assert (L0 : length (shuffle_epi8 tb t_shuf) = 16) by apply shuffle_len. revert L0. generalize (shuffle_epi8 tb t_shuf). intros r L0.
  pose proof (rotl_len r 1) as L1. pose proof (rotl_len r 3) as L3. revert L1 L3. generalize (rotl_epi8 r 1), (rotl_epi8 r 3). intros x y L1 L3.
  pose proof (xor128_len _ _ _ L1 L3) as L4. revert L4. generalize (xor128 x y). intros z L4.
  pose proof (xor128_len _ _ _ (xor128_len _ _ _ L4 (rotl_len z 1)) L0) as L5. revert L5.
  generalize (xor128 (xor128 z (rotl_epi8 z 1)) r). intros u L5. destruct first; [|exact L5]. apply xor128_len; [exact L5|]. apply repeat_length.
Qed.
Lemma rounds_len first t ks : forall m st m' st', Forall (fun k => length k = 16) ks ->
  mpc_rounds first t m ks st = Ok (m', st') -> length m' = 16 /\ length (snd st') = length (snd st).
Proof.
  induction ks as [|k ks IH]; intros m st m' st' F E; cbn [mpc_rounds] in E; apply bind_ok in E as ([m1 s1] & E1 & E); [discriminate|].
  apply restore_t_len in E1 as [L1 L2]. inversion F; subst.
  destruct ks as [|k' ks]; [injection E as <- <-; split; [apply xor128_len; assumption|exact L2]|].
  apply IH in E; [|assumption]. destruct E as [? ?]. split; congruence.
Qed.
Lemma block_len first t pt ks s i x s' : Forall (fun k => length k = 16) ks -> mpc_block first t pt ks s i = Ok (x, s') ->
  length x = 16 /\ length s' = length s.
Proof.
  intros F E. unfold mpc_block in E. destruct ks as [|k0 ks]; [discriminate|]. inversion F; subst.
  apply bind_ok in E as ([m st] & E & E'). injection E' as <- <-. apply rounds_len in E as [? ?]; [|assumption]. cbn [snd] in *. auto.
Qed.
Lemma mks128_len first t rcs : forall key st ks st', length key = 16 -> mks128 first t key rcs st = Ok (ks, st') ->
  Forall (fun k => length k = 16) ks /\ length (snd st') = length (snd st).
Proof.
  induction rcs as [|rc rcs IH]; intros key st ks st' L E; cbn [mks128] in E; [injection E as <- <-; auto|].
  apply bind_ok in E as ([k' s1] & E1 & E). apply bind_ok in E as ([ks' s2] & E2 & E). injection E as <- <-.
  apply restore128_len in E1 as [? ?]; [|assumption]. apply IH in E2 as [? ?]; [|assumption]. split; [constructor; auto|congruence].
Qed.
Lemma mks192_len first t rcs : forall t1 t3 st ks st', length t1 = 16 -> length t3 = 16 -> mks192 first t t1 t3 rcs st = Ok (ks, st') ->
  Forall (fun k => length k = 16) ks /\ length (snd st') = length (snd st).
Proof.
  induction rcs as [|[ra rb] rcs IH]; intros t1 t3 st ks st' L1 L3 E; cbn [mks192] in E; [injection E as <- <-; auto|].
  apply bind_ok in E as ([k1 s1] & E1 & E). apply restore_len in E1 as [G1 G2].
  destruct (ka192_len t1 k1 t3) as [A1 A2]; auto. destruct (KEY_192_ASSIST t1 k1 t3) as [u1 u3]. cbn [fst snd] in A1, A2.
  apply bind_ok in E as ([k2 s2] & E2 & E). apply restore_len in E2 as [G3 G4].
  destruct (ka192_len u1 k2 u3) as [B1 B2]; auto. destruct (KEY_192_ASSIST u1 k2 u3) as [v1 v3]. cbn [fst snd] in B1, B2.
  apply bind_ok in E as ([ks' s3] & E3 & E). injection E as <- <-. apply IH in E3 as [? ?]; auto.
  split; [|congruence]. constructor; [assumption|]. constructor; [apply pd0_len; assumption|]. constructor; [apply pd1_len; assumption|assumption].
Qed.
Lemma mks256_len first t rcs : forall t1 t3 st ks st', length t1 = 16 -> length t3 = 16 -> mks256 first t t1 t3 rcs st = Ok (ks, st') ->
  Forall (fun k => length k = 16) ks /\ length (snd st') = length (snd st).
Proof.
  induction rcs as [|rc rcs IH]; intros t1 t3 st ks st' L1 L3 E; cbn [mks256] in E.
  - apply bind_ok in E as ([k1 s1] & E1 & E). apply restore_len in E1 as [G1 G2]. injection E as <- <-.
    split; [|exact G2]. repeat (constructor; [first [assumption|apply ka1_len; assumption]|]). constructor.
  - apply bind_ok in E as ([k1 s1] & E1 & E). apply restore_len in E1 as [G1 G2].
    apply bind_ok in E as ([k2 s2] & E2 & E). apply restore_len in E2 as [G3 G4].
    apply bind_ok in E as ([ks' s3] & E3 & E). injection E as <- <-.
    apply IH in E3 as [? ?]; [|apply ka1_len; assumption|apply ka2_len; assumption].
    split; [repeat (constructor; [assumption|]); assumption|congruence].
Qed.
Lemma read_len {A} (l : list A) o n r : read l o n = Ok r -> length r = n.
Proof. intros E. apply read_inv in E as [E L]. subst r. apply slice_length. lia. Qed.

Lemma party_128_len first key t pt n o : party_128 first key t pt n = Ok o -> length (fst o) = 16 /\ length (snd o) = n.
Proof.
  unfold party_128. intros E. apply bind_ok in E as (k & Ek & E). apply read_len in Ek.
  apply bind_ok in E as ([ks st] & E1 & E). apply mks128_len in E1 as [F L]; [|assumption].
  apply bind_ok in E as (p & _ & E). destruct o as [x s]. apply block_len in E as [? ?]; [|assumption]. cbn [fst snd] in *.
  rewrite H0, L. split; [assumption|]. apply repeat_length.
Qed.
Lemma two_blocks first t pt ks s i j o : Forall (fun k => length k = 16) ks ->
  (do p0 <- read pt 0 16; do (c0, s) <- mpc_block first t p0 ks s i; do p1 <- read pt 16 16; do (c1, s) <- mpc_block first t p1 ks s j;
   Ok (c0 ++ c1, s)) = Ok o -> length (fst o) = 32 /\ length (snd o) = length s.
Proof.
  intros F E. apply bind_ok in E as (p & _ & E). apply bind_ok in E as ([c0 s0] & E0 & E). apply bind_ok in E as (p1 & _ & E).
  apply bind_ok in E as ([c1 s1] & E1 & E). injection E as <-. apply block_len in E0 as [? ?]; [|assumption]. apply block_len in E1 as [? ?]; [|assumption].
  cbn [fst snd]. rewrite app_length. split; lia.
Qed.
Lemma party_192_len first key t pt n o : party_192 first key t pt n = Ok o -> length (fst o) = 32 /\ length (snd o) = n.
Proof.
  unfold party_192. intros E. apply bind_ok in E as (k & Ek & E). apply read_len in Ek.
  apply bind_ok in E as ([ks st] & E1 & E). apply mks192_len in E1 as [F L];
    [|rewrite firstn_length, app_length, Ek; reflexivity|rewrite skipn_length, app_length, Ek; reflexivity].
  apply two_blocks in E as [L1 L2]; [|assumption]. split; [assumption|]. transitivity (length (snd st)); [exact L2|]. rewrite L. apply repeat_length.
Qed.
Lemma party_256_len first key t pt n o : party_256 first key t pt n = Ok o -> length (fst o) = 32 /\ length (snd o) = n.
Proof.
  unfold party_256. intros E. apply bind_ok in E as (k & Ek & E). apply read_len in Ek.
  apply bind_ok in E as ([ks st] & E1 & E). apply mks256_len in E1 as [F L];
    [|rewrite firstn_length, Ek; reflexivity|rewrite skipn_length, Ek; reflexivity].
  apply two_blocks in E as [L1 L2]; [|assumption]. split; [assumption|]. transitivity (length (snd st)); [exact L2|]. rewrite L. apply repeat_length.
Qed.
Lemma s_shares_len party w keys ts pt n out :
  (forall first key t o, party first key t pt n = Ok o -> length (fst o) = w /\ length (snd o) = n) ->
  s_shares party keys ts pt n = Ok out -> length out = length keys /\ Forall (fun o => length (fst o) = w /\ length (snd o) = n) out.
Proof.
  intros HP E. unfold s_shares in E. split; [rewrite (mapM_length _ _ _ E); apply seq_length|].
  apply mapM_ok_inv in E. induction E as [|p o l out Ho _ IH]; [constructor|]. constructor; [|exact IH].
  apply bind_ok in Ho as (k & _ & Ho). apply bind_ok in Ho as (t & _ & Ho). exact (HP _ _ _ _ Ho).
Qed.
Lemma aes_s_shares_len I keys ts pt n out : proper I -> aes_s_shares (key_size (i_aes I)) keys ts pt n = Ok out ->
  length out = length keys /\ Forall (fun o => length (fst o) = pt_size I /\ length (snd o) = n) out.
Proof.
  intros HI. unfold aes_s_shares, pt_size. destruct (pr_aes I HI) as [E|[E|[E|[]]]]; rewrite <- E; cbn [key_size block_size num_blocks by_key_size Nat.eqb bind Nat.mul Nat.add].
  - apply s_shares_len. intros. eapply party_128_len; eassumption.
  - apply s_shares_len. intros. eapply party_192_len; eassumption.
  - apply s_shares_len. intros. eapply party_256_len; eassumption.
Qed.
