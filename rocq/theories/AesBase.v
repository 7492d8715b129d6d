(** Lemmas about the instruction-level primitives of AesModel. *)
From Coq Require Import Arith NArith List Bool Lia Btauto.
From Verif Require Import Prelude Clmul Gf8 AesSpec AesModel.
Import ListNotations.
Local Open Scope N_scope.

Lemma xor_bytes_xorl a b : xor_bytes a b = xorl a b.
Proof. revert b; induction a; destruct b; simpl; auto; f_equal; auto. Qed.

Ltac xor_solve :=
  apply N.bits_inj; let n := fresh "n" in intro n; rewrite ?N.lxor_spec, ?N.bits_0; btauto.

Ltac lcons := repeat match goal with
  | |- @nil _ = @nil _ => reflexivity
  | |- _ :: _ = _ :: _ => apply (f_equal2 (@cons N))
  end.
(** destruct a list of known length *)
Ltac dlist l H :=
  let x := fresh "x" in
  destruct l as [|x l]; [try discriminate H | cbn [length] in H; try discriminate H;
    try (apply Nat.succ_inj in H; dlist l H)].

(** ** firstn / skipn / slices and xor *)
Lemma firstn_xorl n a b : firstn n (xorl a b) = xorl (firstn n a) (firstn n b).
Proof. revert a b; induction n; destruct a, b; simpl; auto; f_equal; auto. Qed.
Lemma skipn_xorl n a b : skipn n (xorl a b) = xorl (skipn n a) (skipn n b).
Proof.
  revert a b; induction n; intros a b; [reflexivity|].
  destruct a as [|x a], b as [|y b]; cbn [xorl skipn]; auto.
  destruct (skipn n a); reflexivity.
Qed.
Lemma app_xorl a b c d : length a = length b -> xorl (a ++ c) (b ++ d) = xorl a b ++ xorl c d.
Proof. revert b; induction a; destruct b; simpl; intros; try discriminate; auto; f_equal; auto. Qed.
Lemma xorl_swap a a' b b' : xorl (xorl a a') (xorl b b') = xorl (xorl a b) (xorl a' b').
Proof. rewrite !xorl_assoc. f_equal. rewrite <- !xorl_assoc. f_equal. apply xorl_comm. Qed.
Lemma map_xorl f : (forall x y, f (N.lxor x y) = N.lxor (f x) (f y)) ->
  forall a b, map f (xorl a b) = xorl (map f a) (map f b).
Proof. intros H a; induction a; destruct b; simpl; auto. rewrite H. f_equal; auto. Qed.
Lemma map_xorl_bytes f : (forall x y, x < 256 -> y < 256 -> f (N.lxor x y) = N.lxor (f x) (f y)) ->
  forall a b, is_bytes a -> is_bytes b -> map f (xorl a b) = xorl (map f a) (map f b).
Proof.
  intros H a; induction a; destruct b; simpl; auto. intros Ha Hb.
  inversion Ha; inversion Hb; subst. rewrite H by assumption. f_equal; auto.
Qed.

(** registers *)
Definition reg_ok (a : reg) : Prop := length a = 16%nat /\ is_bytes a.

Lemma dword_length a i : length a = 16%nat -> (i < 4)%nat -> length (dword a i) = 4%nat.
Proof. intros. unfold dword. apply slice_length. lia. Qed.
Lemma dword_xorl a b i : dword (xorl a b) i = xorl (dword a i) (dword b i).
Proof. unfold dword, slice. rewrite skipn_xorl, firstn_xorl. reflexivity. Qed.
Lemma slli4_xorl a b : slli4 (xorl a b) = xorl (slli4 a) (slli4 b).
Proof. unfold slli4. rewrite app_xorl by reflexivity. rewrite firstn_xorl. reflexivity. Qed.
Lemma slli4_length a : length a = 16%nat -> length (slli4 a) = 16%nat.
Proof. intros. unfold slli4. rewrite app_length, firstn_length, H. reflexivity. Qed.
Lemma shuffle_all_xorl a b i : length a = 16%nat -> length b = 16%nat -> (i < 4)%nat ->
  shuffle_all (xorl a b) i = xorl (shuffle_all a i) (shuffle_all b i).
Proof.
  intros. unfold shuffle_all. rewrite dword_xorl.
  rewrite !app_xorl by (rewrite !dword_length by assumption; reflexivity). reflexivity.
Qed.
Lemma shuffle_all_length a i : length a = 16%nat -> (i < 4)%nat -> length (shuffle_all a i) = 16%nat.
Proof. intros. unfold shuffle_all. rewrite !app_length, !dword_length by assumption. reflexivity. Qed.
Lemma shuffle_pd0_xorl a b a' b' : length a = 16%nat -> length a' = 16%nat ->
  shuffle_pd0 (xorl a a') (xorl b b') = xorl (shuffle_pd0 a b) (shuffle_pd0 a' b').
Proof.
  intros. unfold shuffle_pd0. rewrite !firstn_xorl, app_xorl; [reflexivity|].
  rewrite !firstn_length. lia.
Qed.
Lemma shuffle_pd1_xorl a b a' b' : length a = 16%nat -> length a' = 16%nat ->
  shuffle_pd1 (xorl a a') (xorl b b') = xorl (shuffle_pd1 a b) (shuffle_pd1 a' b').
Proof.
  intros. unfold shuffle_pd1. rewrite !firstn_xorl, !skipn_xorl, app_xorl; [reflexivity|].
  rewrite !skipn_length. lia.
Qed.
Lemma shuffle_epi8_xorl idx a b : length a = length b ->
  shuffle_epi8 (xorl a b) idx = xorl (shuffle_epi8 a idx) (shuffle_epi8 b idx).
Proof.
  intros H. unfold shuffle_epi8. induction idx; simpl; auto.
  rewrite nth_xorl by assumption. f_equal; auto.
Qed.

(** ** fmul is linear and agrees with the code's multiply *)
Lemma fmul_bits_add n : forall a x y, fmul_bits n a (N.lxor x y) = N.lxor (fmul_bits n a x) (fmul_bits n a y).
Proof.
  induction n; intros; cbn [fmul_bits]; [reflexivity|].
  rewrite N.lxor_spec, N.shiftr_lxor, IHn.
  destruct (N.testbit x 0), (N.testbit y 0); cbn [xorb]; xor_solve.
Qed.
Lemma fmul_add a x y : fmul a (N.lxor x y) = N.lxor (fmul a x) (fmul a y).
Proof. apply fmul_bits_add. Qed.
Lemma xtime_lt b : b < 256 -> xtime b < 256.
Proof.
  intros. unfold xtime. destruct (N.testbit b 7) eqn:E.
  - apply byte_lxor; [|reflexivity].
    change 255 with (N.ones 8). rewrite N.land_ones. apply N.mod_lt. discriminate.
  - rewrite N.shiftl_mul_pow2. change (2^1) with 2.
    assert (b < 128); [|lia].
    destruct (N.lt_ge_cases b 128); auto.
    assert (N.testbit b 7 = true); [|congruence].
    rewrite N.testbit_true. change (2^7) with 128.
    assert (b / 128 = 1); [|rewrite H1; reflexivity].
    symmetry. apply (N.div_unique b 128 1 (b - 128)); lia.
Qed.
Lemma fmul_bits_lt n : forall a b, a < 256 -> fmul_bits n a b < 256.
Proof.
  induction n; intros; cbn [fmul_bits]; [reflexivity|].
  apply byte_lxor; [destruct (N.testbit b 0); lia|]. apply IHn. apply xtime_lt; auto.
Qed.
Lemma fmul_lt a b : a < 256 -> fmul a b < 256.
Proof. apply fmul_bits_lt. Qed.

Lemma fmul_gf8 a b : a < 256 -> b < 256 -> fmul a b = gf8_mul a b.
Proof.
  intros Ha Hb. apply N.eqb_eq.
  apply (all_bytes2_spec (fun a b => fmul a b =? gf8_mul a b)); [vm_compute; reflexivity|assumption..].
Qed.

(** ** the S-box *)
Lemma affine_lt b : affine b < 256.
Proof.
  unfold affine. cbn [seq map fold_right].
  repeat match goal with |- context [affine_bit b ?i] => destruct (affine_bit b i) end; vm_compute; reflexivity.
Qed.
Lemma sbox_lt b : sbox b < 256. Proof. apply affine_lt. Qed.
Lemma sbox_of_inverse s : s < 256 -> N.lxor (affine_lin (inverse s)) AFFINE_CONST = sbox s.
Proof.
  intros H. apply N.eqb_eq.
  apply (all_bytes_spec (fun s => N.lxor (affine_lin (inverse s)) AFFINE_CONST =? sbox s)); [vm_compute; reflexivity|assumption..].
Qed.
Lemma affine_lin_add x y : x < 256 -> y < 256 -> affine_lin (N.lxor x y) = N.lxor (affine_lin x) (affine_lin y).
Proof.
  intros Hx Hy. apply N.eqb_eq.
  apply (all_bytes2_spec (fun x y => affine_lin (N.lxor x y) =? N.lxor (affine_lin x) (affine_lin y))); [vm_compute; reflexivity|assumption..].
Qed.
Lemma affine_lin_lt x : x < 256 -> affine_lin x < 256.
Proof.
  intros Hx. apply N.ltb_lt.
  apply (all_bytes_spec (fun x => affine_lin x <? 256)); [vm_compute; reflexivity|assumption..].
Qed.
Lemma rotl_lin x : x < 256 ->
  N.lxor (N.lxor (N.lxor (rotl8 x 1) (rotl8 x 3)) (rotl8 (N.lxor (rotl8 x 1) (rotl8 x 3)) 1)) x = affine_lin x.
Proof.
  intros Hx. apply N.eqb_eq.
  apply (all_bytes_spec (fun x => N.lxor (N.lxor (N.lxor (rotl8 x 1) (rotl8 x 3))
     (rotl8 (N.lxor (rotl8 x 1) (rotl8 x 3)) 1)) x =? affine_lin x)); [vm_compute; reflexivity|assumption..].
Qed.
Lemma land_ff x : x < 256 -> N.land x 0xff = x.
Proof. intros. change 255 with (N.ones 8). rewrite N.land_ones. apply N.mod_small. assumption. Qed.

(** ** SIMD rotation = bytewise rotation *)
Lemma testbit_high x k : x < 256 -> 8 <= k -> N.testbit x k = false.
Proof.
  intros H Hk. destruct (N.eq_dec x 0) as [->|Hz]; [apply N.bits_0|].
  apply N.bits_above_log2. apply N.lt_le_trans with 8; auto.
  apply N.log2_lt_pow2; [lia|]. assumption.
Qed.
Lemma le_word_testbit l : is_bytes l -> forall i k, k < 8 ->
  N.testbit (le_word l) (8 * N.of_nat i + k) = N.testbit (nth i l 0) k.
Proof.
  induction 1 as [|b l Hb Hl IH]; intros i k Hk.
  - cbn [le_word]. rewrite N.bits_0. destruct i; cbn [nth]; rewrite N.bits_0; reflexivity.
  - cbn [le_word].
    assert (E : b + 256 * le_word l = N.lor b (N.shiftl (le_word l) 8)).
    { rewrite N.shiftl_mul_pow2. change (2^8) with 256. rewrite (N.mul_comm (le_word l)).
      symmetry. rewrite <- N.lxor_lor.
      - symmetry. apply N.add_nocarry_lxor.
        apply N.bits_inj; intro n. rewrite N.land_spec, N.bits_0.
        rewrite (N.mul_comm 256). change 256 with (2^8). rewrite <- N.shiftl_mul_pow2.
        destruct (N.lt_ge_cases n 8).
        + rewrite N.shiftl_spec_low by assumption. apply andb_false_r.
        + rewrite testbit_high by assumption. reflexivity.
      - apply N.bits_inj; intro n. rewrite N.land_spec, N.bits_0.
        rewrite (N.mul_comm 256). change 256 with (2^8). rewrite <- N.shiftl_mul_pow2.
        destruct (N.lt_ge_cases n 8).
        + rewrite N.shiftl_spec_low by assumption. apply andb_false_r.
        + rewrite testbit_high by assumption. reflexivity. }
    rewrite E, N.lor_spec. destruct i as [|i]; cbn [nth].
    + change (8 * N.of_nat 0) with 0. rewrite N.add_0_l, N.shiftl_spec_low by assumption. apply orb_false_r.
    + rewrite (testbit_high b) by (assumption || lia). cbn [orb].
      rewrite N.shiftl_spec_high' by lia.
      replace (8 * N.of_nat (S i) + k - 8) with (8 * N.of_nat i + k) by lia. apply IH; assumption.
Qed.
Lemma le_bytes_testbit n : forall w i k, (i < n)%nat -> k < 8 ->
  N.testbit (nth i (le_bytes n w) 0) k = N.testbit w (8 * N.of_nat i + k).
Proof.
  induction n; intros w i k Hi Hk; [lia|].
  cbn [le_bytes]. destruct i as [|i]; cbn [nth].
  - change (8 * N.of_nat 0) with 0. rewrite N.add_0_l. change 256 with (2^8).
    apply N.mod_pow2_bits_low. assumption.
  - rewrite IHn by (assumption || lia).
    change 256 with (2^8). rewrite N.div_pow2_bits. f_equal. lia.
Qed.

Lemma rot_word_bytes w k : length w = 4%nat -> is_bytes w -> 1 <= k -> k < 8 ->
  orl (map (fun b => N.land (N.land (N.shiftl 0xff k) 0xff) b) (le_bytes 4 (N.shiftl (le_word w) k)))
      (map (fun b => N.land (N.shiftr 0xff (8 - k)) b) (le_bytes 4 (N.shiftr (le_word w) (8 - k))))
  = map (fun b => rotl8 b k) w.
Proof.
  intros Hl Hw Hk1 Hk8.
  assert (Ho : forall a b i, length a = length b -> nth i (orl a b) 0 = N.lor (nth i a 0) (nth i b 0)).
  { induction a; destruct b; intros i E; try discriminate; destruct i; cbn [orl nth]; auto. }
  assert (Hol : forall a b, length a = length b -> length (orl a b) = length a).
  { induction a; destruct b; intros E; try discriminate; cbn [orl length]; auto. }
  apply (nth_ext _ _ 0 0).
  - rewrite Hol; rewrite !map_length, !le_bytes_length; auto.
  - rewrite Hol; rewrite !map_length, !le_bytes_length; auto.
    intros i Hi.
    rewrite Ho by (rewrite !map_length, !le_bytes_length; reflexivity).
    set (W := le_word w). set (m1 := N.land (N.shiftl 255 k) 255). set (m2 := N.shiftr 255 (8 - k)).
    rewrite (nth_indep (map (fun b => N.land m1 b) _) 0 ((fun b => N.land m1 b) 0))
      by (rewrite map_length, le_bytes_length; assumption).
    rewrite (nth_indep (map (fun b => N.land m2 b) _) 0 ((fun b => N.land m2 b) 0))
      by (rewrite map_length, le_bytes_length; assumption).
    rewrite (nth_indep (map (fun b => rotl8 b k) w) 0 ((fun b => rotl8 b k) 0))
      by (rewrite map_length, Hl; assumption).
    rewrite (map_nth (fun b => N.land m1 b)), (map_nth (fun b => N.land m2 b)), (map_nth (fun b => rotl8 b k)).
    assert (Hb : nth i w 0 < 256) by (apply is_bytes_nth; assumption).
    set (x := nth i w 0) in *.
    assert (Hf : forall n, N.testbit 255 n = (n <? 8)).
    { intros n. change 255 with (N.ones 8). destruct (N.ltb_spec n 8).
      - apply N.ones_spec_low; assumption.
      - apply N.ones_spec_high; assumption. }
    apply N.bits_inj; intro n. unfold rotl8.
    rewrite !N.lor_spec, !N.land_spec.
    destruct (N.lt_ge_cases n 8) as [Hn|Hn].
    + rewrite !le_bytes_testbit by (assumption || lia).
      unfold m1, m2. rewrite N.land_spec, !N.shiftr_spec', !Hf.
      destruct (N.ltb_spec n 8); [|lia]. rewrite !andb_true_r. f_equal.
      * destruct (N.lt_ge_cases n k).
        -- rewrite !(N.shiftl_spec_low _ k n) by assumption. reflexivity.
        -- rewrite !(N.shiftl_spec_high' _ k n) by assumption. rewrite Hf.
           destruct (N.ltb_spec (n - k) 8); [|lia]. cbn [andb].
           rewrite N.shiftl_spec_high' by lia.
           replace (8 * N.of_nat i + n - k) with (8 * N.of_nat i + (n - k)) by lia.
           unfold W. apply le_word_testbit; [assumption|lia].
      * destruct (N.ltb_spec (n + (8 - k)) 8); cbn [andb].
        -- replace (8 * N.of_nat i + n + (8 - k)) with (8 * N.of_nat i + (n + (8 - k))) by lia.
           unfold W. rewrite le_word_testbit by (assumption || lia). reflexivity.
        -- symmetry. apply testbit_high; lia.
    + unfold m1, m2. rewrite N.land_spec, !N.shiftr_spec', !Hf.
      destruct (N.ltb_spec n 8); [lia|]. rewrite !andb_false_r. cbn [andb orb].
      destruct (N.ltb_spec (n + (8 - k)) 8); [lia|]. cbn [andb].
      symmetry. apply testbit_high; lia.
Qed.

Lemma orl_app a b c d : length a = length c -> orl (a ++ b) (c ++ d) = orl a c ++ orl b d.
Proof. revert c; induction a; destruct c; simpl; intros; try discriminate; auto; f_equal; auto. Qed.

Lemma dwords a : length a = 16%nat -> a = dword a 0 ++ dword a 1 ++ dword a 2 ++ dword a 3.
Proof. intros H. dlist a H. reflexivity. Qed.
Lemma dword_bytes a i : is_bytes a -> is_bytes (dword a i).
Proof. intros. unfold dword. apply is_bytes_slice. assumption. Qed.

Lemma rotl_epi8_map a k : reg_ok a -> 1 <= k -> k < 8 -> rotl_epi8 a k = map (fun b => rotl8 b k) a.
Proof.
  intros [Hl Hb] H1 H8.
  unfold rotl_epi8, slli_epi8, srli_epi8, and_set1, slli_epi32, srli_epi32, columns.
  rewrite (dwords a Hl) at 9.
  rewrite !map_app.
  rewrite !orl_app by (rewrite !map_length, !le_bytes_length; reflexivity).
  rewrite !rot_word_bytes by (try apply dword_length; try apply dword_bytes; (assumption || lia)).
  reflexivity.
Qed.

(** ** reg_ok closure *)
Lemma reg_xor a b : reg_ok a -> reg_ok b -> reg_ok (xorl a b).
Proof. intros [? ?] [? ?]. split; [apply xorl_length_eq; assumption|apply is_bytes_xorl; assumption]. Qed.
Lemma is_bytes_app a b : is_bytes a -> is_bytes b -> is_bytes (a ++ b).
Proof. intros. apply Forall_app. split; assumption. Qed.
Lemma is_bytes_firstn n a : is_bytes a -> is_bytes (firstn n a).
Proof. intros. apply (is_bytes_slice a 0 n). assumption. Qed.
Lemma is_bytes_skipn n a : is_bytes a -> is_bytes (skipn n a).
Proof.
  intros H. rewrite <- (firstn_all (skipn n a)). apply (is_bytes_slice a n). assumption.
Qed.
Lemma reg_slli4 a : reg_ok a -> reg_ok (slli4 a).
Proof.
  intros [? ?]. split; [apply slli4_length; assumption|].
  apply is_bytes_app; [repeat constructor|apply is_bytes_firstn; assumption].
Qed.
Lemma reg_shuffle_all a i : reg_ok a -> (i < 4)%nat -> reg_ok (shuffle_all a i).
Proof.
  intros [? ?] ?. split; [apply shuffle_all_length; assumption|].
  unfold shuffle_all. repeat apply is_bytes_app; apply dword_bytes; assumption.
Qed.
Lemma reg_shuffle_pd0 a b : reg_ok a -> reg_ok b -> reg_ok (shuffle_pd0 a b).
Proof.
  intros [? ?] [? ?]. split.
  - unfold shuffle_pd0. rewrite app_length, !firstn_length. lia.
  - apply is_bytes_app; apply is_bytes_firstn; assumption.
Qed.
Lemma reg_shuffle_pd1 a b : reg_ok a -> reg_ok b -> reg_ok (shuffle_pd1 a b).
Proof.
  intros [? ?] [? ?]. split.
  - unfold shuffle_pd1. rewrite app_length, firstn_length, skipn_length. lia.
  - apply is_bytes_app; [apply is_bytes_skipn|apply is_bytes_firstn]; assumption.
Qed.
Lemma reg_map f a : (forall x, x < 256 -> f x < 256) -> reg_ok a -> reg_ok (map f a).
Proof.
  intros Hf [? Hb]. split; [rewrite map_length; assumption|].
  clear - Hb Hf. induction Hb; simpl; constructor; auto. apply Hf; assumption.
Qed.
Lemma reg_shuffle_epi8 a idx : length idx = 16%nat -> reg_ok a -> reg_ok (shuffle_epi8 a idx).
Proof.
  intros Hi [? Hb]. split; [unfold shuffle_epi8; rewrite map_length; assumption|].
  unfold shuffle_epi8. clear Hi. induction idx; simpl; constructor; auto. apply is_bytes_nth; assumption.
Qed.
Lemma reg_zeros : reg_ok (zeros 16).
Proof. split; [reflexivity|apply is_bytes_zeros]. Qed.
Lemma is_bytes_sub w : is_bytes (map sbox w).
Proof. induction w; simpl; constructor; auto. apply sbox_lt. Qed.
Lemma is_bytes_rot w : is_bytes w -> is_bytes (rotword w).
Proof. destruct w; simpl; auto. intros H; inversion H; subst. apply is_bytes_app; [assumption|constructor; [assumption|constructor]]. Qed.
Lemma is_bytes_xor_rcon w rc : is_bytes w -> rc < 256 -> is_bytes (xor_rcon w rc).
Proof. destruct w; simpl; auto. intros H Hr; inversion H; subst. constructor; auto. apply byte_lxor; auto. Qed.
Lemma reg_assist a rc : reg_ok a -> rc < 256 -> reg_ok (aeskeygenassist a rc).
Proof.
  intros [H Hb] Hr. split.
  - dlist a H. reflexivity.
  - unfold aeskeygenassist. repeat apply is_bytes_app; try apply is_bytes_xor_rcon; try apply is_bytes_rot;
      try apply is_bytes_sub; assumption.
Qed.

(** ** AESENC and three AESIMCs *)
Lemma mixcol_xorl c1 c2 c3 c4 u v :
  length u = 4%nat -> length v = 4%nat ->
  let f a b c d := N.lxor (fmul c1 a) (N.lxor (fmul c2 b) (N.lxor (fmul c3 c) (fmul c4 d))) in
  mixcol f (xorl u v) = xorl (mixcol f u) (mixcol f v).
Proof.
  intros Hu Hv f. dlist u Hu. dlist v Hv. cbn [xorl mixcol]. unfold f.
  lcons; rewrite !fmul_add; xor_solve.
Qed.
Lemma imc_xorl u v : length u = 4%nat -> length v = 4%nat ->
  mixcol imc_byte (xorl u v) = xorl (mixcol imc_byte u) (mixcol imc_byte v).
Proof. apply (mixcol_xorl 14 11 13 9). Qed.
Lemma mixcol_length f u : length u = 4%nat -> length (mixcol f u) = 4%nat.
Proof. intros H. dlist u H. reflexivity. Qed.
Lemma mc_xorl u v : length u = 4%nat -> length v = 4%nat ->
  mixcol mc_byte (xorl u v) = xorl (mixcol mc_byte u) (mixcol mc_byte v).
Proof.
  intros Hu Hv. dlist u Hu. dlist v Hv. cbn [xorl mixcol]. unfold mc_byte.
  lcons; rewrite !fmul_add; xor_solve.
Qed.

Definition imc3 (u : bytes) := mixcol imc_byte (mixcol imc_byte (mixcol imc_byte u)).
Definition beq (a b : bytes) : bool := if list_eq_dec N.eq_dec a b then true else false.
Lemma beq_eq a b : beq a b = true -> a = b.
Proof. unfold beq. destruct (list_eq_dec N.eq_dec a b); congruence. Qed.
Lemma imc3_check x : x < 256 ->
  (imc3 [x;0;0;0] = mixcol mc_byte [x;0;0;0] /\ imc3 [0;x;0;0] = mixcol mc_byte [0;x;0;0]) /\
  (imc3 [0;0;x;0] = mixcol mc_byte [0;0;x;0] /\ imc3 [0;0;0;x] = mixcol mc_byte [0;0;0;x]).
Proof.
  intros H.
  assert (K : forall x, x < 256 ->
    (beq (imc3 [x;0;0;0]) (mixcol mc_byte [x;0;0;0]) && beq (imc3 [0;x;0;0]) (mixcol mc_byte [0;x;0;0])) &&
    (beq (imc3 [0;0;x;0]) (mixcol mc_byte [0;0;x;0]) && beq (imc3 [0;0;0;x]) (mixcol mc_byte [0;0;0;x])) = true).
  { apply all_bytes_spec. vm_compute. reflexivity. }
  specialize (K x H). apply andb_true_iff in K as [K1 K2].
  apply andb_true_iff in K1 as [K1 K3]. apply andb_true_iff in K2 as [K2 K4].
  apply beq_eq in K1, K2, K3, K4. split; split; assumption.
Qed.
Lemma imc3_mc u : length u = 4%nat -> is_bytes u -> imc3 u = mixcol mc_byte u.
Proof.
  intros Hl Hb. dlist u Hl.
  inversion Hb as [|? ? B1 Hb1]; inversion Hb1 as [|? ? B2 Hb2]; inversion Hb2 as [|? ? B3 Hb3];
    inversion Hb3 as [|? ? B4 Hb4]; subst.
  assert (E : [x;x0;x1;x2] = xorl (xorl [x;0;0;0] [0;x0;0;0]) (xorl [0;0;x1;0] [0;0;0;x2])).
  { cbn [xorl]. lcons; xor_solve. }
  rewrite E.
  assert (A : forall u v, length u = 4%nat -> length v = 4%nat -> imc3 (xorl u v) = xorl (imc3 u) (imc3 v)).
  { intros. unfold imc3. rewrite !imc_xorl; auto using mixcol_length. }
  rewrite !A, !mc_xorl by reflexivity.
  destruct (imc3_check x B1) as [[K1 _] _], (imc3_check x0 B2) as [[_ K2] _],
    (imc3_check x1 B3) as [_ [K3 _]], (imc3_check x2 B4) as [_ [_ K4]].
  rewrite K1, K2, K3, K4. reflexivity.
Qed.

Lemma columns_length g a : (forall u, length u = 4%nat -> length (g u) = 4%nat) -> length a = 16%nat ->
  length (columns g a) = 16%nat.
Proof. intros Hg H. unfold columns. rewrite !app_length, !Hg by (apply dword_length; lia). reflexivity. Qed.
Lemma dword_columns g a i : (forall u, length u = 4%nat -> length (g u) = 4%nat) -> length a = 16%nat -> (i < 4)%nat ->
  dword (columns g a) i = g (dword a i).
Proof.
  intros Hg H Hi.
  assert (Q : forall u0 u1 u2 u3, length u0 = 4%nat -> length u1 = 4%nat -> length u2 = 4%nat -> length u3 = 4%nat ->
            forall i, (i < 4)%nat -> dword (u0 ++ u1 ++ u2 ++ u3) i = nth i [u0;u1;u2;u3] []).
  { clear. intros u0 u1 u2 u3 H0 H1 H2 H3 i Hi. dlist u0 H0. dlist u1 H1. dlist u2 H2. dlist u3 H3.
    destruct i as [|[|[|[|i]]]]; try lia; reflexivity. }
  unfold columns at 1. rewrite Q by (try (apply Hg; apply dword_length); lia).
  destruct i as [|[|[|[|i]]]]; try lia; reflexivity.
Qed.
Lemma columns_xorl g a b : (forall u, length u = 4%nat -> length (g u) = 4%nat) ->
  (forall u v, length u = 4%nat -> length v = 4%nat -> g (xorl u v) = xorl (g u) (g v)) ->
  length a = 16%nat -> length b = 16%nat -> columns g (xorl a b) = xorl (columns g a) (columns g b).
Proof.
  intros Hg Ha H1 H2. unfold columns. rewrite !dword_xorl.
  rewrite !Ha by (apply dword_length; lia).
  rewrite !app_xorl by (rewrite !Hg by (apply dword_length; lia); reflexivity). reflexivity.
Qed.

Lemma aesimc3 a : reg_ok a -> aesimc (aesimc (aesimc a)) = columns (mixcol mc_byte) a.
Proof.
  intros [Hl Hb]. unfold aesimc.
  set (g := mixcol imc_byte).
  assert (Hg : forall u, length u = 4%nat -> length (g u) = 4%nat) by (intros; apply mixcol_length; assumption).
  assert (L1 : length (columns g a) = 16%nat) by (apply columns_length; assumption).
  assert (L2 : length (columns g (columns g a)) = 16%nat) by (apply columns_length; assumption).
  unfold columns at 1. rewrite !(dword_columns g) by (assumption || lia).
  unfold columns at 1. unfold g.
  rewrite <- !imc3_mc by (try apply dword_length; try apply dword_bytes; (assumption || lia)).
  unfold imc3. reflexivity.
Qed.
Lemma aesimc_xorl a b : length a = 16%nat -> length b = 16%nat -> aesimc (xorl a b) = xorl (aesimc a) (aesimc b).
Proof. intros. apply columns_xorl; auto using mixcol_length, imc_xorl. Qed.
Lemma aesimc_length a : length a = 16%nat -> length (aesimc a) = 16%nat.
Proof. intros. apply columns_length; auto using mixcol_length. Qed.
Lemma reg_columns_mc a : length a = 16%nat -> reg_ok a -> reg_ok (columns (mixcol mc_byte) a).
Proof.
  intros H [_ Hb]. split; [apply columns_length; auto using mixcol_length|].
  assert (M : forall w, length w = 4%nat -> is_bytes w -> is_bytes (mixcol mc_byte w)).
  { clear. intros w H Hb. dlist w H.
    inversion Hb as [|? ? B1 Hb1]; inversion Hb1 as [|? ? B2 Hb2]; inversion Hb2 as [|? ? B3 Hb3];
    inversion Hb3 as [|? ? B4 Hb4]; subst. cbn [mixcol]. unfold mc_byte.
    unfold is_bytes, is_byte in *.
    repeat (apply Forall_cons; [repeat first [assumption | apply fmul_lt; reflexivity | apply byte_lxor]|]). apply Forall_nil. }
  unfold columns. repeat apply is_bytes_app; apply M; try apply dword_length; try apply dword_bytes; (assumption || lia).
Qed.

Lemma aesenc_round a k : length a = 16%nat -> aesenc a k = round a k.
Proof.
  intros H. unfold aesenc, round, add_round_key, xor128. change xor_bytes with xorl. apply (f_equal (fun z => xorl z k)).
  dlist a H. unfold sub_bytes. cbn -[sbox fmul]. reflexivity.
Qed.
Lemma aesenclast_round a k : length a = 16%nat -> aesenclast a k = final_round a k.
Proof.
  intros H. unfold aesenclast, final_round, add_round_key, xor128. change xor_bytes with xorl. apply (f_equal (fun z => xorl z k)).
  dlist a H. unfold sub_bytes. cbn -[sbox fmul]. reflexivity.
Qed.
