(** One round of __KeccakF1600 (keccak/avx2) is one round of the permutation, with the lanes in the ymm registers. *)
From Coq Require Import Arith NArith ZArith List String Bool Lia Btauto.
From Verif Require Import Prelude SpongeModel KeccakModel KeccakFacts X86Model Avx2Code.
Import ListNotations.

(** *** steps *)
Fixpoint steps (k : nat) (M : machine) : res machine :=
  match k with O => Ok M | S k' => do o <- step code constants M; match o with Next M' => steps k' M' | Done _ => UB OutOfBounds end end.
Definition reach (k : nat) (M M' : machine) : Prop := forall f, run code constants (k + f) M = run code constants f M'.
Lemma steps_reach : forall k M M', steps k M = Ok M' -> reach k M M'.
Proof.
  induction k as [|k IH]; intros M M' E f; cbn [steps Nat.add run] in *; [congruence|]. destruct (step code constants M) as [o| | |]; cbn [bind] in *; try discriminate. destruct o as [M1|M1]; [|discriminate]. apply IH. exact E.
Qed.
Lemma reach_refl M : reach 0 M M.
Proof. intros f. reflexivity. Qed.
Lemma reach_trans a b M M1 M2 : reach a M M1 -> reach b M1 M2 -> reach (a + b) M M2.
Proof. intros H1 H2 f. rewrite <- Nat.add_assoc, H1. apply H2. Qed.

(** *** words *)
Lemma w_rot x x' r l k : b64 x' -> x = x' -> N.of_nat k = l -> (r + l = 64)%N -> 0 < k < 64 -> w_or (w_shr x r) (w_shl x l) = rol64 x' k.
Proof.
  intros Hb -> <- Hr Hk. unfold w_or, w_shr, w_shl, rol64. replace (r <? 64)%N with true by (symmetry; apply N.ltb_lt; lia). replace (N.of_nat k <? 64)%N with true by (symmetry; apply N.ltb_lt; lia).
  replace (N.of_nat (64 - k)) with r by lia. apply N.bits_inj. intros z. rewrite N.lor_spec, N.lxor_spec. destruct (N.ltb_spec z 64) as [Hz|Hz].
  - rewrite N.mod_pow2_bits_low by exact Hz. rewrite N.shiftr_spec'. destruct (N.ltb_spec z (N.of_nat k)) as [L|L].
    + rewrite N.shiftl_spec_low by exact L. rewrite orb_false_r. destruct (N.testbit x' (z + r)); reflexivity.
    + assert (E : N.testbit x' (z + r) = false). { apply b64_bits with (z := N.to_nat (z + r)) in Hb; [|lia]. unfold bit in Hb. rewrite N2Nat.id in Hb. exact Hb. }
      rewrite E. rewrite orb_false_l, xorb_false_r. reflexivity.
  - rewrite N.mod_pow2_bits_high by exact Hz. rewrite orb_false_r, xorb_false_l. reflexivity.
Qed.
Lemma w_add_shl x : w_add x x = w_shl x 1.
Proof. unfold w_add, w_shl. change (1 <? 64)%N with true. rewrite N.shiftl_mul_pow2. f_equal. change (2 ^ 1)%N with 2%N. lia. Qed.
Lemma w_or_comm a b : w_or a b = w_or b a.
Proof. apply N.lor_comm. Qed.
Lemma E_rot1 x x' : b64 x' -> x = x' -> w_or (w_shr x 63) (w_add x x) = rol64 x' 1.
Proof. intros H E. rewrite w_add_shl. apply w_rot; try assumption; try reflexivity. lia. Qed.
Lemma E_rot1' x x' : b64 x' -> x = x' -> w_or (w_add x x) (w_shr x 63) = rol64 x' 1.
Proof. intros H E. rewrite w_or_comm. apply E_rot1; assumption. Qed.
Lemma E_chi b0 b1 b2 c0 c1 c2 : b0 = c0 -> b1 = c1 -> b2 = c2 -> w_xor b0 (w_andn b1 b2) = N.lxor c0 (N.land (not64 c1) c2).
Proof. intros -> -> ->. reflexivity. Qed.
Lemma E_chi' b0 b1 b2 c0 c1 c2 : b0 = c0 -> b1 = c1 -> b2 = c2 -> w_xor (w_andn b1 b2) b0 = N.lxor c0 (N.land (not64 c1) c2).
Proof. intros -> -> ->. apply N.lxor_comm. Qed.
Lemma E_xor x y x' y' : x = x' -> y = y' -> w_xor x y = N.lxor x' y'.
Proof. intros -> ->. reflexivity. Qed.
Lemma E_xor' x y x' y' : x = x' -> y = y' -> w_xor x y = N.lxor y' x'.
Proof. intros -> ->. apply N.lxor_comm. Qed.

(** lane x,y of the state is A[5*y+x]; which lane is in which quadword follows mapState *)
Definition ylay (A : lanes) : list v4 :=
  [V4 (l_ba A) (l_ba A) (l_ba A) (l_ba A); V4 (l_be A) (l_bi A) (l_bo A) (l_bu A); V4 (l_ka A) (l_sa A) (l_ga A) (l_ma A);
   V4 (l_me A) (l_gi A) (l_so A) (l_ku A); V4 (l_ke A) (l_si A) (l_go A) (l_mu A); V4 (l_se A) (l_mi A) (l_ko A) (l_gu A);
   V4 (l_ge A) (l_ki A) (l_mo A) (l_su A)].

Ltac colx := unfold w_xor; apply N.bits_inj; intros ?; rewrite !N.lxor_spec; btauto.
Ltac b64t := solve [b64s].
Ltac lane_eq :=
  lazymatch goal with
  | |- ?x = ?x => reflexivity
  | |- w_or (w_shr ?x 63) (w_add ?x ?x) = rol64 ?y 1 => apply E_rot1; [b64t|lane_eq]
  | |- w_or (w_add ?x ?x) (w_shr ?x 63) = rol64 ?y 1 => apply E_rot1'; [b64t|lane_eq]
  | |- w_or (w_shr ?x _) (w_shl ?x _) = rol64 ?y _ => apply w_rot; [b64t|lane_eq|reflexivity|reflexivity|lia]
  | |- w_xor _ (w_andn _ _) = N.lxor _ (N.land _ _) => apply E_chi; lane_eq
  | |- w_xor (w_andn _ _) _ = N.lxor _ (N.land _ _) => apply E_chi'; lane_eq
  | |- w_xor (w_or _ _) _ = N.lxor _ (rol64 _ _) => apply E_xor'; lane_eq
  | |- w_xor ?x _ = N.lxor ?x _ => apply E_xor; [reflexivity|lane_eq]
  | |- _ => colx
  end.

Lemma round_body A i va vb vc vd vs vt v10 c z s ms md ys : Forall b64 (lane_list A) -> List.length ys = 9 ->
  exists x ys', List.length ys' = 9 /\
    steps 105 (mkM 256 (mkG va vb vc vd vs vt (Vp Bro 96) (Vp Bro 288) v10) (ylay A ++ ys) c z s ms md) =
      Ok (mkM 361 (mkG va vb vc vd vs vt (Vp Bro 96) (Vp Bro 288) v10) (V4 x x x x :: tl (ylay (round i A)) ++ ys') c z s ms md) /\
    N.lxor x (nth i round_constants 0%N) = l_ba (round i A).
Proof.
  intros H L. destruct ys as [|y7 [|y8 [|y9 [|y10 [|y11 [|y12 [|y13 [|y14 [|y15 [|]]]]]]]]]]; try discriminate L. clear L.
  destruct A as [Aba Abe Abi Abo Abu Aga Age Agi Ago Agu Aka Ake Aki Ako Aku Ama Ame Ami Amo Amu Asa Ase Asi Aso Asu]. unfold lane_list in H. proj_in H.
  repeat (apply Forall_cons_iff in H; let X := fresh "Hb" in destruct H as [X H]). clear H.
  set (R := round i _). eexists _, [_; _; _; _; _; _; _; _; _]. split; [reflexivity|]. split.
  - transitivity (Ok (mkM 361 (mkG va vb vc vd vs vt (Vp Bro 96) (Vp Bro 288) v10)
      ltac:(let t := eval cbv -[w_xor w_or w_andn w_add w_shl w_shr] in (steps 105 (mkM 256 (mkG va vb vc vd vs vt (Vp Bro 96) (Vp Bro 288) v10) (ylay (mkLanes Aba Abe Abi Abo Abu Aga Age Agi Ago Agu Aka Ake Aki Ako Aku Ama Ame Ami Amo Amu Asa Ase Asi Aso Asu) ++ [y7; y8; y9; y10; y11; y12; y13; y14; y15]) c z s ms md)) in
        match t with Ok (mkM _ _ ?y _ _ _ _ _) => exact y end) c z s ms md)).
    + cbv -[w_xor w_or w_andn w_add w_shl w_shr]. reflexivity.
    + apply (f_equal (fun y => Ok (mkM 361 (mkG va vb vc vd vs vt (Vp Bro 96) (Vp Bro 288) v10) y c z s ms md))).
      unfold R, ylay, round, theta_rho_pi_chi_iota_prepare_theta, prepare_theta. proj. cbv zeta. cbn [tl app].
      repeat (apply f_equal2; [first [reflexivity | apply f_equal4; lane_eq]|]). reflexivity.
  - unfold R, round, theta_rho_pi_chi_iota_prepare_theta, prepare_theta. proj. cbv zeta. apply f_equal2; [lane_eq|reflexivity].
Qed.
