(** Proofs about the field arithmetic of FieldModel. *)
From Coq Require Import Arith NArith ZArith List Bool Lia.
From Verif Require Import Prelude Clmul FieldModel.
Import ListNotations.
Local Open Scope N_scope.

(** ** Truncation *)
Lemma w64_small x : x < 2 ^ 64 -> w64 x = x.
Proof. intros. unfold w64. rewrite N.land_ones. apply N.mod_small; auto. Qed.
Lemma w64_lt x : w64 x < 2 ^ 64.
Proof. unfold w64. rewrite N.land_ones. apply N.mod_lt. discriminate. Qed.

Lemma pow2_le_mono a b : a <= b -> 2 ^ a <= 2 ^ b.
Proof. intros. apply N.pow_le_mono_r; lia. Qed.
Lemma lt_pow2_weaken x a b : x < 2 ^ a -> a <= b -> x < 2 ^ b.
Proof. intros. eapply N.lt_le_trans; eauto. apply pow2_le_mono; auto. Qed.

(** ** The reductions are additive *)
Lemma additive_id : additive (fun x => x).
Proof. intros a b. reflexivity. Qed.
Lemma additive_lxor f g : additive f -> additive g -> additive (fun x => N.lxor (f x) (g x)).
Proof. intros Hf Hg a b. cbv beta. rewrite Hf, Hg. apply lxor_xchg. Qed.
Lemma land_lxor_l a b m : N.land (N.lxor a b) m = N.lxor (N.land a m) (N.land b m).
Proof.
  apply N.bits_inj. intros i. rewrite ?N.land_spec, ?N.lxor_spec, ?N.land_spec.
  destruct (N.testbit a i), (N.testbit b i), (N.testbit m i); reflexivity.
Qed.
Lemma additive_land f m : additive f -> additive (fun x => N.land (f x) m).
Proof. intros Hf a b. cbv beta. rewrite Hf. apply land_lxor_l. Qed.
Lemma additive_w64 f : additive f -> additive (fun x => w64 (f x)).
Proof. apply additive_land. Qed.
Lemma additive_shr f k : additive f -> additive (fun x => shr (f x) k).
Proof. intros Hf a b. unfold shr. rewrite Hf. apply N.shiftr_lxor. Qed.
Lemma additive_shl f k : additive f -> additive (fun x => shl (f x) k).
Proof. intros Hf. unfold shl. apply additive_w64. intros a b. rewrite Hf. apply N.shiftl_lxor. Qed.
Lemma additive_shiftl f k : additive f -> additive (fun x => N.shiftl (f x) k).
Proof. intros Hf a b. rewrite Hf. apply N.shiftl_lxor. Qed.
Lemma additive_ext_fun f g : (forall x, f x = g x) -> additive f -> additive g.
Proof. intros E H a b. rewrite <- !E. apply H. Qed.
Lemma additive_clmul64 f k : additive f -> additive (fun x => clmul64 (f x) k).
Proof.
  intros Hf a b. unfold clmul64. rewrite (additive_w64 f Hf a b). apply clmul_lxor_l.
Qed.

Ltac solve_additive :=
  repeat first
    [ simple apply additive_land | simple apply additive_lxor | simple apply additive_shl | simple apply additive_shr | simple apply additive_shiftl
    | simple apply additive_w64 | simple apply additive_clmul64 | simple apply additive_id ].

Lemma reduce_16_additive : additive reduce_GF2_16.
Proof. unfold reduce_GF2_16, lo64, hi64; cbv zeta. solve_additive. Qed.
Lemma reduce_32_additive : additive reduce_GF2_32.
Proof. unfold reduce_GF2_32, lo64, hi64; cbv zeta. solve_additive. Qed.
Lemma reduce_32_barret_additive : additive reduce_GF2_32_barret.
Proof. unfold reduce_GF2_32_barret, lo64, hi64; cbv zeta. solve_additive. Qed.

Lemma lor_shl_shr a b k : k <= 64 -> N.lor (shl a (64 - k)) (shr (w64 b) k) = N.lxor (shl a (64 - k)) (shr (w64 b) k).
Proof.
  intros Hk. symmetry. apply N.lxor_lor. apply N.bits_inj. intros i.
  rewrite N.land_spec, N.bits_0. unfold shl, shr, w64.
  rewrite N.shiftr_spec by lia. rewrite !N.land_spec.
  destruct (N.lt_ge_cases i (64 - k)).
  - rewrite N.shiftl_spec_low by auto. reflexivity.
  - rewrite (N.ones_spec_high 64 (i + k)) by lia. rewrite !andb_false_r. reflexivity.
Qed.

Lemma reduce_40_additive : additive reduce_GF2_40.
Proof.
  set (up := fun x => N.lxor (shl (N.land (hi64 x) 0xFFFF) 24) (shr (lo64 x) 40)).
  apply additive_ext_fun with (f := fun x =>
    let R_lower := lo64 x in
    let R_upper := up x in
    let T := R_upper in
    let R_upper := N.lxor (N.lxor (N.lxor R_upper (shr T 35)) (shr T 36)) (shr T 37) in
    let R_lower := N.lxor (N.lxor (N.lxor (N.lxor R_lower (shl R_upper 5)) (shl R_upper 4))
                        (shl R_upper 3)) (shl R_upper 0) in
    N.land R_lower 0xFFFFFFFFFF).
  - intros x. unfold reduce_GF2_40, up. cbv zeta. unfold lo64.
    change 24 with (64 - 40). rewrite lor_shl_shr by discriminate. reflexivity.
  - unfold up, lo64, hi64; cbv zeta. solve_additive.
Qed.

Lemma reduce_48_additive : additive reduce_GF2_48.
Proof.
  set (up := fun x => N.lxor (shl (N.land (hi64 x) 0xFFFFFFFF) 16) (shr (lo64 x) 48)).
  apply additive_ext_fun with (f := fun x =>
    let R_lower := lo64 x in
    let R_upper := up x in
    let T := R_upper in
    let R_upper := N.lxor (N.lxor (N.lxor R_upper (shr T 43)) (shr T 45)) (shr T 46) in
    let R_lower := N.lxor (N.lxor (N.lxor (N.lxor R_lower (shl R_upper 5)) (shl R_upper 3))
                        (shl R_upper 2)) (shl R_upper 0) in
    N.land R_lower 0xFFFFFFFFFFFF).
  - intros x. unfold reduce_GF2_48, up. cbv zeta. unfold lo64.
    change 16 with (64 - 48). rewrite lor_shl_shr by discriminate. reflexivity.
  - unfold up, lo64, hi64; cbv zeta. solve_additive.
Qed.

(** ** A reduction computes the remainder: check on powers of x, extend by linearity *)

(** plain long division, used only to produce quotients for the basis checks *)
Fixpoint pdiv (fuel : nat) (a m : N) : N :=
  match fuel with
  | O => 0
  | S f => if (a =? 0) || (N.log2 a <? N.log2 m) then 0
           else let d := N.log2 a - N.log2 m in
                N.lxor (2 ^ d) (pdiv f (N.lxor a (N.shiftl m d)) m)
  end.

Definition basis_cong (red : N -> N) (m : N) (i : nat) : bool :=
  let x := 2 ^ N.of_nat i in
  let d := N.lxor x (red x) in
  d =? clmul (pdiv 200 d m) m.

Lemma reduce_cong red m k :
  additive red -> allb k (basis_cong red m) = true ->
  forall x, x < 2 ^ N.of_nat k -> cong m x (red x).
Proof.
  intros Ha Hb. apply closed_basis.
  - rewrite additive_0 by auto. apply cong_refl.
  - intros a b H1 H2. rewrite Ha. apply cong_lxor; auto.
  - intros i Hi. pose proof (allb_spec _ _ Hb i Hi) as H. unfold basis_cong in H.
    apply N.eqb_eq in H. eexists. exact H.
Qed.

(** linear maps given by the images of the powers of x *)
Fixpoint lin_apply (l : list N) (a : N) : N :=
  match l with
  | [] => 0
  | v :: l' => N.lxor (if N.odd a then v else 0) (lin_apply l' (N.div2 a))
  end.
Lemma div2_lxor a b : N.div2 (N.lxor a b) = N.lxor (N.div2 a) (N.div2 b).
Proof. rewrite !N.div2_spec. apply N.shiftr_lxor. Qed.
Lemma odd_lxor a b : N.odd (N.lxor a b) = xorb (N.odd a) (N.odd b).
Proof. rewrite <- !N.bit0_odd. apply N.lxor_spec. Qed.
Lemma lin_apply_additive l : additive (lin_apply l).
Proof.
  induction l; intros x y; simpl.
  - reflexivity.
  - rewrite div2_lxor, IHl, odd_lxor, lxor_xchg. f_equal.
    destruct (N.odd x), (N.odd y); simpl; rewrite ?N.lxor_0_r; auto.
    symmetry. apply N.lxor_nilpotent.
Qed.

(** iterated squaring *)
Fixpoint frob (red : N -> N) (k : nat) (a : N) : N :=
  match k with O => a | S k' => frob red k' (gmul_with red a a) end.

(** What is needed of a field context; [n] is the extension degree. *)
Record field_ok (n : nat) (c : fctx) (linv : list N) : Prop := {
  fo_size : n = (8 * fc_byte_size c)%nat;
  fo_n : (0 < n <= 48)%nat;
  fo_log2 : N.log2 (fc_modulus c) = N.of_nat n;
  fo_add : additive (fc_reduce c);
  fo_basis : allb (2 * n) (basis_cong (fc_reduce c) (fc_modulus c)) = true;
  fo_lt : forall x, fc_reduce c x < 2 ^ N.of_nat n;
  fo_frob : allb n (fun i => frob (fc_reduce c) n (2 ^ N.of_nat i) =? 2 ^ N.of_nat i) = true;
  fo_linv : allb n (fun i => lin_apply linv (N.lxor (gmul c (2 ^ N.of_nat i) (2 ^ N.of_nat i)) (2 ^ N.of_nat i))
                             =? N.land (2 ^ N.of_nat i) (N.lxor 1 (N.ones (N.of_nat n)))) = true
}.

Definition linv16 : list N := [1842; 29368; 29370; 32406; 29374; 30898; 32414; 36026; 29358; 64036; 30866; 0; 32478; 58964; 35898; 22674].
Definition linv32 : list N := [1425871460; 3262106980; 3262106982; 596276322; 3262106978; 2537278634; 596276330; 2004248338; 3262106994; 3250443606; 2537278602; 1462372684; 596276266; 3063135876; 2004248466; 2505424958; 3262106738; 1451497976; 3250444118; 2529415882; 2537277578; 1418076124; 1462370636; 3080433092; 596272170; 0; 3063127684; 3306814086; 2004232082; 3115950048; 2505392190; 930490298].
Definition linv40 : list N := [26385567436; 50562593990; 50562593988; 59615755820; 50562593984; 733344722154; 59615755812; 467513320642; 50562594000; 884250785816; 733344722122; 692442043594; 59615755876; 734372360218; 467513320514; 55241153460; 50562594256; 687194898458; 884250786328; 59882109840; 733344721098; 825769624264; 692442045642; 874136436284; 59615751780; 413484360486; 734372352026; 54790284752; 467513336898; 443398019622; 55241186228; 445612558886; 50562528720; 708076215214; 687194767386; 0; 884250524184; 119282005456; 59882634128; 609638448010].
Definition linv48 : list N := [211124532446448; 212667450671370; 212667450671368; 190918641033150; 212667450671372; 1577261258160; 190918641033142; 7735407550308; 212667450671388; 223184046619128; 1577261258128; 112358627103566; 190918641033206; 177286887544870; 7735407550436; 12675892341364; 212667450671132; 187651416064018; 223184046619640; 188003971529718; 1577261257104; 105553118363662; 112358627105614; 223851544526876; 190918641029110; 7036030995152; 177286887553062; 211125019014172; 7735407566820; 7104650065972; 12675892374132; 217931471201308; 212667450736668; 105580331199098; 187651415932946; 15364543736436; 223184046881784; 112527774415850; 188003972054006; 184250504424038; 1577260208528; 179848164190822; 105553116266510; 0; 112358631299918; 25699813853904; 223851536138268; 41989887122240].


Lemma land_mask_lt x k : N.land x (N.ones k) < 2 ^ k.
Proof. rewrite N.land_ones. apply N.mod_lt, N.pow_nonzero. discriminate. Qed.

Lemma field_ok_16 : field_ok 16 ctx16 linv16.
Proof.
  constructor.
  - reflexivity.
  - lia.
  - reflexivity.
  - apply reduce_16_additive.
  - vm_compute; reflexivity.
  - intros x. apply (land_mask_lt _ 16).
  - vm_compute; reflexivity.
  - vm_compute; reflexivity.
Qed.
Lemma field_ok_32 : field_ok 32 ctx32 linv32.
Proof.
  constructor.
  - reflexivity.
  - lia.
  - reflexivity.
  - apply reduce_32_additive.
  - vm_compute; reflexivity.
  - intros x. apply (land_mask_lt _ 32).
  - vm_compute; reflexivity.
  - vm_compute; reflexivity.
Qed.
Lemma field_ok_40 : field_ok 40 ctx40 linv40.
Proof.
  constructor.
  - reflexivity.
  - lia.
  - reflexivity.
  - apply reduce_40_additive.
  - vm_compute; reflexivity.
  - intros x. apply (land_mask_lt _ 40).
  - vm_compute; reflexivity.
  - vm_compute; reflexivity.
Qed.
Lemma field_ok_48 : field_ok 48 ctx48 linv48.
Proof.
  constructor.
  - reflexivity.
  - lia.
  - reflexivity.
  - apply reduce_48_additive.
  - vm_compute; reflexivity.
  - intros x. apply (land_mask_lt _ 48).
  - vm_compute; reflexivity.
  - vm_compute; reflexivity.
Qed.

(** ** Field laws for any context satisfying [field_ok] *)
Section FieldLaws.
Context (n : nat) (c : fctx) (linv : list N) (OK : field_ok n c linv).
Notation nn := (N.of_nat n).
Notation q := (2 ^ nn).
Notation m := (fc_modulus c).
Notation red := (fc_reduce c).
Notation mul := (gmul c).

Lemma q_le : q <= 2 ^ 48.
Proof. apply pow2_le_mono. destruct (fo_n _ _ _ OK). lia. Qed.
Lemma in_w64 a : a < q -> w64 a = a.
Proof.
  intros. apply w64_small. eapply N.lt_le_trans; eauto. eapply N.le_trans; [apply q_le|].
  vm_compute; discriminate.
Qed.
Lemma m_neq0 : m <> 0.
Proof. intros E. pose proof (fo_log2 _ _ _ OK). pose proof (fo_n _ _ _ OK). rewrite E in H. simpl in H. lia. Qed.
Lemma one_lt_q : 1 < q.
Proof.
  pose proof (fo_n _ _ _ OK). apply N.lt_le_trans with (2 ^ 1). reflexivity. apply pow2_le_mono. lia.
Qed.
Lemma zero_lt_q : 0 < q.
Proof. pose proof one_lt_q. lia. Qed.

Lemma mul_unfold a b : a < q -> b < q -> mul a b = red (clmul a b).
Proof. intros. unfold gmul, gmul_with, clmul64. rewrite !in_w64 by auto. reflexivity. Qed.
Lemma mul_lt a b : mul a b < q.
Proof. apply (fo_lt _ _ _ OK). Qed.
Lemma clmul_lt2 a b : a < q -> b < q -> clmul a b < 2 ^ N.of_nat (2 * n).
Proof.
  intros Ha Hb. pose proof (fo_n _ _ _ OK).
  destruct (clmul_lt a b nn nn Ha Hb) as [Hl|[Hl|Hl]]; [|lia|lia].
  eapply lt_pow2_weaken; eauto. lia.
Qed.
Lemma red_cong x : x < 2 ^ N.of_nat (2 * n) -> cong m x (red x).
Proof. apply reduce_cong; [apply (fo_add _ _ _ OK)|apply (fo_basis _ _ _ OK)]. Qed.
Lemma mul_cong a b : a < q -> b < q -> cong m (clmul a b) (mul a b).
Proof. intros. rewrite mul_unfold by auto. apply red_cong. apply clmul_lt2; auto. Qed.
Lemma cong_eq a b : a < q -> b < q -> cong m a b -> a = b.
Proof. apply cong_unique; [apply (fo_log2 _ _ _ OK)|apply m_neq0]. Qed.

Lemma mul_comm a b : mul a b = mul b a.
Proof. unfold gmul, gmul_with, clmul64. rewrite clmul_comm. reflexivity. Qed.
Lemma mul_assoc a b d : a < q -> b < q -> d < q -> mul (mul a b) d = mul a (mul b d).
Proof.
  intros Ha Hb Hd. apply cong_eq; try apply mul_lt.
  apply cong_trans with (clmul (clmul a b) d).
  - apply cong_sym. eapply cong_trans; [|apply mul_cong; auto; apply mul_lt].
    apply cong_clmul; [apply mul_cong; auto|apply cong_refl].
  - rewrite clmul_assoc. eapply cong_trans; [|apply mul_cong; auto; apply mul_lt].
    apply cong_clmul; [apply cong_refl|apply mul_cong; auto].
Qed.
Lemma add_lt a b : a < q -> b < q -> N.lxor a b < q.
Proof. apply lxor_lt_pow2. Qed.
Lemma mul_add_l a b d : a < q -> b < q -> d < q ->
  mul (N.lxor a b) d = N.lxor (mul a d) (mul b d).
Proof.
  intros. rewrite !mul_unfold by auto using add_lt. rewrite clmul_lxor_l. apply (fo_add _ _ _ OK).
Qed.
Lemma red_small a : a < q -> red a = a.
Proof.
  intros. apply cong_eq; auto. apply (fo_lt _ _ _ OK).
  apply cong_sym, red_cong. eapply lt_pow2_weaken; eauto. lia.
Qed.
Lemma mul_1_l a : a < q -> mul 1 a = a.
Proof.
  intros. rewrite mul_unfold by (auto using one_lt_q). rewrite clmul_1_l. apply red_small; auto.
Qed.
Lemma mul_0_l a : mul 0 a = 0.
Proof.
  unfold gmul, gmul_with, clmul64. rewrite (w64_small 0) by reflexivity. rewrite clmul_0_l.
  apply additive_0, (fo_add _ _ _ OK).
Qed.
Lemma mul_0_r a : mul a 0 = 0.
Proof. rewrite mul_comm. apply mul_0_l. Qed.

(** Frobenius *)
Lemma sqr_additive_on a b : a < q -> b < q ->
  mul (N.lxor a b) (N.lxor a b) = N.lxor (mul a a) (mul b b).
Proof.
  intros. rewrite mul_add_l by auto using add_lt.
  rewrite !(mul_comm _ (N.lxor a b)), !mul_add_l by auto.
  rewrite (mul_comm b a). rewrite !N.lxor_assoc. f_equal.
  rewrite <- N.lxor_assoc, N.lxor_nilpotent, N.lxor_0_l. reflexivity.
Qed.
Lemma frob_lt k a : a < q -> frob red k a < q.
Proof. revert a; induction k; simpl; intros; auto. apply IHk, mul_lt. Qed.
Lemma frob_add k a b : a < q -> b < q -> frob red k (N.lxor a b) = N.lxor (frob red k a) (frob red k b).
Proof.
  revert a b; induction k; intros a b Ha Hb; simpl; auto.
  fold (gmul c a a) (gmul c b b) (gmul c (N.lxor a b) (N.lxor a b)).
  rewrite sqr_additive_on by auto. apply IHk; apply mul_lt.
Qed.
Lemma frob_0 k : frob red k 0 = 0.
Proof.
  induction k; simpl; auto. fold (gmul c 0 0). rewrite mul_0_l. auto.
Qed.
Lemma frob_id a : a < q -> frob red n a = a.
Proof.
  intros Ha.
  enough (a < q /\ frob red n a = a) by tauto.
  revert a Ha. apply closed_basis.
  - split; [apply zero_lt_q|apply frob_0].
  - intros a b [H1 H2] [H3 H4]. split; [apply add_lt; auto|].
    rewrite frob_add by auto. congruence.
  - intros i Hi. split.
    + apply N.pow_lt_mono_r; lia.
    + apply N.eqb_eq. apply (allb_spec _ _ (fo_frob _ _ _ OK) i Hi).
Qed.

(** a^2 = a has only the solutions 0 and 1 *)
Lemma idempotent a : a < q -> mul a a = a -> a = 0 \/ a = 1.
Proof.
  intros Ha E.
  assert (H : a < q /\ lin_apply linv (N.lxor (mul a a) a) = N.land a (N.lxor 1 (N.ones nn))).
  { clear E. revert a Ha. apply closed_basis.
    - split; [apply zero_lt_q|]. rewrite mul_0_l. simpl.
      rewrite additive_0 by apply lin_apply_additive. reflexivity.
    - intros a b [H1 H2] [H3 H4]. split; [apply add_lt; auto|].
      rewrite sqr_additive_on by auto. rewrite lxor_xchg, lin_apply_additive, H2, H4.
      symmetry. apply land_lxor_l.
    - intros i Hi. split.
      + apply N.pow_lt_mono_r; lia.
      + apply N.eqb_eq. apply (allb_spec _ _ (fo_linv _ _ _ OK) i Hi). }
  destruct H as [_ H]. rewrite E, N.lxor_nilpotent in H.
  rewrite additive_0 in H by apply lin_apply_additive.
  rewrite N.land_comm, land_lxor_l, (N.land_comm (N.ones nn)), N.land_ones, N.mod_small in H by auto.
  symmetry in H. apply N.lxor_eq in H.
  assert (E1 : N.land 1 a = 0 \/ N.land 1 a = 1) by (destruct a as [|[]]; simpl; auto).
  rewrite H in E1. exact E1.
Qed.

(** existence of inverses *)
Fixpoint pow_m1 (k : nat) (a : N) : N :=   (* a^(2^k - 1) *)
  match k with O => 1 | S k' => mul (mul (pow_m1 k' a) (pow_m1 k' a)) a end.
Lemma pow_m1_lt k a : pow_m1 k a < q.
Proof. destruct k; simpl. apply one_lt_q. apply mul_lt. Qed.
Lemma frob_S k a : frob red (S k) a = mul (frob red k a) (frob red k a).
Proof. revert a; induction k; intros a; [reflexivity|]. change (frob red (S (S k)) a) with (frob red (S k) (mul a a)). rewrite IHk. reflexivity. Qed.
Lemma pow_m1_frob k a : a < q -> mul a (pow_m1 k a) = frob red k a.
Proof.
  intros Ha. induction k.
  - simpl. rewrite mul_comm. apply mul_1_l; auto.
  - rewrite frob_S, <- IHk. cbn [pow_m1]. set (e := pow_m1 k a).
    assert (He : e < q) by apply pow_m1_lt.
    rewrite (mul_comm (mul e e) a). rewrite <- !mul_assoc by auto using mul_lt.
    rewrite (mul_comm (mul a a) e), <- mul_assoc by auto using mul_lt.
    rewrite (mul_comm e a). rewrite mul_assoc by auto using mul_lt.
    rewrite (mul_comm a e). rewrite (mul_comm e a). reflexivity.
Qed.
Lemma exists_inverse a : a < q -> a <> 0 -> exists b, b < q /\ mul a b = 1.
Proof.
  intros Ha Hn. pose proof (fo_n _ _ _ OK) as Hnn.
  destruct (Nat.eq_dec n 0) as [E0|E0]; [lia|].
  pose (k := Nat.pred n). assert (En : n = S k) by (unfold k; lia).
  set (w := mul (pow_m1 k a) (pow_m1 k a)).
  assert (Hw : w < q) by apply mul_lt.
  assert (E1 : mul a (mul w a) = a).
  { transitivity (frob red n a); [|apply frob_id; auto].
    rewrite En. rewrite <- pow_m1_frob by auto. reflexivity. }
  exists w. split; auto.
  assert (Hid : mul (mul a w) (mul a w) = mul a w).
  { rewrite (mul_comm a w) at 2.
    rewrite <- mul_assoc by auto using mul_lt.
    rewrite (mul_assoc a w w) by auto.
    rewrite (mul_comm a (mul w w)).
    rewrite (mul_assoc w w a) by auto.
    rewrite (mul_assoc w (mul w a) a) by auto using mul_lt.
    rewrite (mul_comm (mul w a) a), E1. apply mul_comm. }
  destruct (idempotent (mul a w)) as [H|H]; auto using mul_lt.
  exfalso. apply Hn. rewrite <- E1, (mul_comm w a), H. apply mul_0_r.
Qed.
End FieldLaws.
