(** The rounds of KeccakP-1600-times4-SIMD256.c do to each of the four words what those of keccak/opt64 do to one. *)
From Coq Require Import Arith NArith List Bool Lia.
From Verif Require Import Prelude SpongeModel KeccakModel KeccakFacts KeccakBytes X86Model Simd256Model.
Import ListNotations.

Lemma w_andn_not a b : w_andn a b = N.land (not64 a) b.
Proof. reflexivity. Qed.
Lemma bit_lor a b z : bit (N.lor a b) z = bit a z || bit b z.
Proof. apply N.lor_spec. Qed.
Lemma bits_eq a b : b64 a -> b64 b -> (forall z, z < 64 -> bit a z = bit b z) -> a = b.
Proof.
  intros Ha Hb H. apply N.bits_inj. intros k. replace k with (N.of_nat (N.to_nat k)) by lia. change (bit a (N.to_nat k) = bit b (N.to_nat k)).
  destruct (Nat.ltb_spec (N.to_nat k) 64) as [L|L]; [apply H; exact L|]. rewrite (proj1 (b64_bits a) Ha), (proj1 (b64_bits b) Hb) by exact L. reflexivity.
Qed.
Lemma b64_shl a o : b64 (w_shl a o).
Proof. unfold w_shl. destruct (o <? 64)%N; [|reflexivity]. apply N.mod_lt. discriminate. Qed.
Lemma b64_shr a o : b64 a -> b64 (w_shr a o).
Proof.
  intros A. unfold w_shr. destruct (o <? 64)%N; [|reflexivity]. unfold b64 in *. rewrite N.shiftr_div_pow2. eapply N.le_lt_trans; [|exact A]. apply N.div_le_upper_bound; [apply N.pow_nonzero; discriminate|].
  rewrite <- (N.mul_1_l a) at 1. apply N.mul_le_mono_r. assert (2 ^ o <> 0)%N by (apply N.pow_nonzero; discriminate). lia.
Qed.
Lemma b64_lor a b : b64 a -> b64 b -> b64 (N.lor a b).
Proof. rewrite !b64_bits. intros A B z Hz. rewrite bit_lor, A, B by exact Hz. reflexivity. Qed.
Lemma or_rol a o : b64 a -> 0 < o < 64 -> w_or (w_shl a (N.of_nat o)) (w_shr a (64 - N.of_nat o)) = rol64 a o.
Proof.
  intros Ha Ho. apply bits_eq; [apply b64_lor; [apply b64_shl|apply b64_shr; exact Ha]|apply b64_rol64; exact Ha|]. intros z Hz. unfold w_or, rol64, w_shl, w_shr. rewrite bit_lor, bit_lxor.
  replace (N.of_nat o <? 64)%N with true by (symmetry; apply N.ltb_lt; lia). replace (64 - N.of_nat o <? 64)%N with true by (symmetry; apply N.ltb_lt; lia). replace (64 - N.of_nat o)%N with (N.of_nat (64 - o)) by lia.
  destruct (Nat.ltb_spec z o) as [L|L].
  - assert (E : bit (N.shiftl a (N.of_nat o) mod 2 ^ 64) z = false) by (unfold bit; rewrite N.mod_pow2_bits_low by lia; apply N.shiftl_spec_low; lia). rewrite E, orb_false_l, xorb_false_l. reflexivity.
  - assert (E : bit (N.shiftr a (N.of_nat (64 - o))) z = false). { unfold bit. rewrite N.shiftr_spec'. replace (N.of_nat z + N.of_nat (64 - o))%N with (N.of_nat (z + (64 - o))) by lia. apply (proj1 (b64_bits a) Ha). lia. }
    rewrite E, orb_false_r, xorb_false_r. reflexivity.
Qed.
(** shuffles of the eight bytes of a word *)
Definition shuf (s : list nat) (a : N) : N := le_word (map (fun k => nth k (le_bytes 8 a) 0%N) s).
Lemma shuf_bytes s a : is_bytes (map (fun k => nth k (le_bytes 8 a) 0%N) s).
Proof.
  apply Forall_forall. intros x Hx. apply in_map_iff in Hx. destruct Hx as (k & <- & _). pose proof (le_bytes_is_bytes 8 a) as B. unfold is_bytes in B. rewrite Forall_forall in B.
  destruct (Nat.ltb_spec k 8) as [L|L]; [apply B; apply nth_In; rewrite le_bytes_length; exact L|]. rewrite nth_overflow by (rewrite le_bytes_length; exact L). reflexivity.
Qed.
Lemma b64_shuf s a : length s = 8 -> b64 (shuf s a).
Proof. intros L. unfold b64, shuf. pose proof (le_word_lt _ (shuf_bytes s a)) as H. rewrite map_length, L in H. exact H. Qed.
Lemma lt8 (P : nat -> Prop) : P 0 -> P 1 -> P 2 -> P 3 -> P 4 -> P 5 -> P 6 -> P 7 -> forall x, x < 8 -> P x.
Proof. intros H0 H1 H2 H3 H4 H5 H6 H7 x Hx. do 8 (destruct x as [|x]; [assumption|]). lia. Qed.
Lemma shuf_rol (s : list nat) o a : length s = 8 -> 0 < o < 64 -> (forall q, q < 8 -> nth q s 0 < 8 /\ forall r, r < 8 -> (8 * q + r + KeccakSpec.w - o) mod KeccakSpec.w = 8 * nth q s 0 + r) -> b64 a ->
  shuf s a = rol64 a o.
Proof.
  intros L Ho Hs Ha. apply bits_eq; [apply b64_shuf; exact L|apply b64_rol64; exact Ha|]. intros z Hz. rewrite bit_rol64 by (assumption || lia). unfold shuf. rewrite bit_word by apply shuf_bytes.
  pose proof (Nat.div_mod z 8 ltac:(discriminate)) as E. pose proof (Nat.mod_upper_bound z 8 ltac:(discriminate)) as U. assert (Q : z / 8 < 8) by (apply Nat.div_lt_upper_bound; lia).
  destruct (Hs (z / 8) Q) as [H1 H2]. specialize (H2 _ U). rewrite <- E in H2. rewrite H2.
  rewrite (nth_indep _ 0%N ((fun k => nth k (le_bytes 8 a) 0%N) 0)) by (rewrite map_length, L; exact Q). rewrite (map_nth (fun k => nth k (le_bytes 8 a) 0%N)). apply bit_le_bytes; assumption.
Qed.
Lemma shuf8 a : b64 a -> shuf [7; 0; 1; 2; 3; 4; 5; 6] a = rol64 a 8.
Proof. apply shuf_rol; [reflexivity|lia|]. apply lt8; cbn [nth]; (split; [lia|]); apply lt8; reflexivity. Qed.
Lemma shuf56 a : b64 a -> shuf [1; 2; 3; 4; 5; 6; 7; 0] a = rol64 a 56.
Proof. apply shuf_rol; [reflexivity|lia|]. apply lt8; cbn [nth]; (split; [lia|]); apply lt8; reflexivity. Qed.
Lemma half8_lo a b : b64 a -> shuffle_half a b (w0 rho8) = rol64 a 8.
Proof. intros H. rewrite <- (shuf8 a H). reflexivity. Qed.
Lemma half8_hi a b : b64 b -> shuffle_half a b (w1 rho8) = rol64 b 8.
Proof. intros H. rewrite <- (shuf8 b H). reflexivity. Qed.
Lemma half8_lo' a b : b64 a -> shuffle_half a b (w2 rho8) = rol64 a 8.
Proof. intros H. rewrite <- (shuf8 a H). reflexivity. Qed.
Lemma half8_hi' a b : b64 b -> shuffle_half a b (w3 rho8) = rol64 b 8.
Proof. intros H. rewrite <- (shuf8 b H). reflexivity. Qed.
Lemma half56_lo a b : b64 a -> shuffle_half a b (w0 rho56) = rol64 a 56.
Proof. intros H. rewrite <- (shuf56 a H). reflexivity. Qed.
Lemma half56_hi a b : b64 b -> shuffle_half a b (w1 rho56) = rol64 b 56.
Proof. intros H. rewrite <- (shuf56 b H). reflexivity. Qed.
Lemma half56_lo' a b : b64 a -> shuffle_half a b (w2 rho56) = rol64 a 56.
Proof. intros H. rewrite <- (shuf56 a H). reflexivity. Qed.
Lemma half56_hi' a b : b64 b -> shuffle_half a b (w3 rho56) = rol64 b 56.
Proof. intros H. rewrite <- (shuf56 b H). reflexivity. Qed.

(** *** vectors *)
Definition vok (a : V256) : Prop := b64 (w0 a) /\ b64 (w1 a) /\ b64 (w2 a) /\ b64 (w3 a).
Lemma rol_eq a o : vok a -> 0 < o < 64 -> ROL64in256 a (N.of_nat o) = V4 (rol64 (w0 a) o) (rol64 (w1 a) o) (rol64 (w2 a) o) (rol64 (w3 a) o).
Proof. intros (A & B & C & D) Ho. unfold ROL64in256, vmap2, slli_epi64, srli_epi64. cbn [w0 w1 w2 w3]. rewrite !or_rol by assumption. reflexivity. Qed.
Lemma rol8_eq a : vok a -> ROL64in256_8 a = V4 (rol64 (w0 a) 8) (rol64 (w1 a) 8) (rol64 (w2 a) 8) (rol64 (w3 a) 8).
Proof. intros (A & B & C & D). unfold ROL64in256_8, shuffle_epi8. rewrite half8_lo, half8_hi, half8_lo', half8_hi' by assumption. reflexivity. Qed.
Lemma rol56_eq a : vok a -> ROL64in256_56 a = V4 (rol64 (w0 a) 56) (rol64 (w1 a) 56) (rol64 (w2 a) 56) (rol64 (w3 a) 56).
Proof. intros (A & B & C & D). unfold ROL64in256_56, shuffle_epi8. rewrite half56_lo, half56_hi, half56_lo', half56_hi' by assumption. reflexivity. Qed.
Lemma vok_xor a b : vok a -> vok b -> vok (XOR256 a b).
Proof. intros (A & B & C & D) (E & F & G & H). repeat split; apply b64_lxor; assumption. Qed.
Lemma vok_andn a b : vok b -> vok (ANDnu256 a b).
Proof. intros (E & F & G & H). repeat split; apply b64_land; assumption. Qed.
Lemma vok_const i : vok (CONST256_64 (nth i KeccakF1600RoundConstants 0%N)).
Proof. repeat split; apply (b64_const i). Qed.
Lemma vok_rol a o : vok a -> 0 < o < 64 -> vok (ROL64in256 a (N.of_nat o)).
Proof. intros H Ho. rewrite rol_eq by assumption. destruct H as (A & B & C & D). repeat split; apply b64_rol64; assumption. Qed.
Lemma vok_rol8 a : vok a -> vok (ROL64in256_8 a).
Proof. intros H. rewrite rol8_eq by assumption. destruct H as (A & B & C & D). repeat split; apply b64_rol64; assumption. Qed.
Lemma vok_rol56 a : vok a -> vok (ROL64in256_56 a).
Proof. intros H. rewrite rol56_eq by assumption. destruct H as (A & B & C & D). repeat split; apply b64_rol64; assumption. Qed.

(** *** one of the four states *)
Definition vlist (A : vlanes) : list V256 :=
  [v_ba A; v_be A; v_bi A; v_bo A; v_bu A; v_ga A; v_ge A; v_gi A; v_go A; v_gu A; v_ka A; v_ke A; v_ki A; v_ko A; v_ku A; v_ma A; v_me A; v_mi A; v_mo A; v_mu A; v_sa A; v_se A; v_si A; v_so A; v_su A].
Definition vclist (C : vcols) : list V256 := [v_ca C; v_ce C; v_ci C; v_co C; v_cu C].
Definition pj (p : V256 -> N) (A : vlanes) : lanes :=
  mkLanes (p (v_ba A)) (p (v_be A)) (p (v_bi A)) (p (v_bo A)) (p (v_bu A)) (p (v_ga A)) (p (v_ge A)) (p (v_gi A)) (p (v_go A)) (p (v_gu A)) (p (v_ka A)) (p (v_ke A)) (p (v_ki A)) (p (v_ko A)) (p (v_ku A)) (p (v_ma A)) (p (v_me A)) (p (v_mi A)) (p (v_mo A)) (p (v_mu A)) (p (v_sa A)) (p (v_se A)) (p (v_si A)) (p (v_so A)) (p (v_su A)).
Definition pjc (p : V256 -> N) (C : vcols) : cols := mkCols (p (v_ca C)) (p (v_ce C)) (p (v_ci C)) (p (v_co C)) (p (v_cu C)).
Definition in64 (o : N) : bool := ((0 <? o) && (o <? 64))%N.
Lemma in64_to o : in64 o = true -> 0 < N.to_nat o < 64.
Proof. unfold in64. rewrite andb_true_iff, !N.ltb_lt. lia. Qed.
Lemma vok_rolN a o : vok a -> in64 o = true -> vok (ROL64in256 a o).
Proof. intros H Ho. rewrite <- (N2Nat.id o). apply vok_rol; [exact H|apply in64_to; exact Ho]. Qed.
Lemma rol_eqN a o : vok a -> in64 o = true -> ROL64in256 a o = V4 (rol64 (w0 a) (N.to_nat o)) (rol64 (w1 a) (N.to_nat o)) (rol64 (w2 a) (N.to_nat o)) (rol64 (w3 a) (N.to_nat o)).
Proof. intros H Ho. rewrite <- (N2Nat.id o) at 1. apply rol_eq; [exact H|apply in64_to; exact Ho]. Qed.
Section Lane.
Variable p : V256 -> N.
Hypothesis p_xor : forall a b, p (XOR256 a b) = N.lxor (p a) (p b).
Hypothesis p_andn : forall a b, p (ANDnu256 a b) = N.land (not64 (p a)) (p b).
Hypothesis p_const : forall a, p (CONST256_64 a) = a.
Hypothesis p_rol : forall a o, vok a -> in64 o = true -> p (ROL64in256 a o) = rol64 (p a) (N.to_nat o).
Hypothesis p_rol8 : forall a, vok a -> p (ROL64in256_8 a) = rol64 (p a) 8.
Hypothesis p_rol56 : forall a, vok a -> p (ROL64in256_56 a) = rol64 (p a) 56.
Ltac vproj := cbn [v_ba v_be v_bi v_bo v_bu v_ga v_ge v_gi v_go v_gu v_ka v_ke v_ki v_ko v_ku v_ma v_me v_mi v_mo v_mu v_sa v_se v_si v_so v_su v_ca v_ce v_ci v_co v_cu fst snd].
Ltac vproj_in H := cbn [v_ba v_be v_bi v_bo v_bu v_ga v_ge v_gi v_go v_gu v_ka v_ke v_ki v_ko v_ku v_ma v_me v_mi v_mo v_mu v_sa v_se v_si v_so v_su v_ca v_ce v_ci v_co v_cu fst snd] in H.
Lemma F2_cons {A B} (R : A -> B -> Prop) a l b m : Forall2 R (a :: l) (b :: m) -> R a b /\ Forall2 R l m.
Proof. intros F. inversion F; subst. split; assumption. Qed.
Definition rl (a : V256) (x : N) : Prop := vok a /\ p a = x.
Lemma rl_xor a b x y : rl a x -> rl b y -> rl (XOR256 a b) (N.lxor x y).
Proof. intros [A <-] [B <-]. split; [apply vok_xor; assumption|apply p_xor]. Qed.
Lemma rl_andn a b x y : rl a x -> rl b y -> rl (ANDnu256 a b) (N.land (not64 x) y).
Proof. intros [A <-] [B <-]. split; [apply vok_andn; assumption|apply p_andn]. Qed.
Lemma rl_const i : rl (CONST256_64 (nth i KeccakF1600RoundConstants 0%N)) (nth i round_constants 0%N).
Proof. split; [apply vok_const|apply p_const]. Qed.
Lemma rl_rol a x o k : rl a x -> in64 o = true -> N.to_nat o = k -> rl (ROL64in256 a o) (rol64 x k).
Proof. intros [A <-] Ho <-. split; [apply vok_rolN; assumption|apply p_rol; assumption]. Qed.
Lemma rl_rol8 a x : rl a x -> rl (ROL64in256_8 a) (rol64 x 8).
Proof. intros [A <-]. split; [apply vok_rol8; assumption|apply p_rol8; assumption]. Qed.
Lemma rl_rol56 a x : rl a x -> rl (ROL64in256_56 a) (rol64 x 56).
Proof. intros [A <-]. split; [apply vok_rol56; assumption|apply p_rol56; assumption]. Qed.
Ltac rls := repeat match goal with
  | |- rl (XOR256 _ _) (N.lxor _ _) => apply rl_xor
  | |- rl (ANDnu256 _ _) (N.land _ _) => apply rl_andn
  | |- rl (ROL64in256 _ _) (rol64 _ _) => apply rl_rol; [|reflexivity|reflexivity]
  | |- rl (ROL64in256_8 _) (rol64 _ _) => apply rl_rol8
  | |- rl (ROL64in256_56 _) (rol64 _ _) => apply rl_rol56
  | |- rl (CONST256_64 _) _ => apply rl_const
  | |- rl _ _ => assumption end.
Ltac opn A := repeat (apply Forall_cons_iff in A; let X := fresh "Hv" in destruct A as [X A]).
Ltac start := repeat match goal with H : vok ?a |- _ => let X := fresh "R" in assert (X : rl a (p a)) by (split; [exact H|reflexivity]); clear H end.
Lemma rl_lanes A L : Forall2 rl (vlist A) (lane_list L) -> pj p A = L /\ Forall vok (vlist A).
Proof.
  intros F. split.
  - destruct A, L. unfold vlist, lane_list in F. vproj_in F. proj_in F. unfold pj. vproj.
    repeat match goal with F : Forall2 rl (_ :: _) (_ :: _) |- _ => let R := fresh "R" in let F' := fresh in destruct (F2_cons _ _ _ _ _ F) as [[_ R] F']; clear F; rename F' into F end. subst. reflexivity.
  - clear - F. remember (lane_list L) as l eqn:E. clear E. induction F as [|a x va l [H _] F IH]; constructor; assumption.
Qed.
Lemma rl_cols C L : Forall2 rl (vclist C) (col_list L) -> pjc p C = L /\ Forall vok (vclist C).
Proof.
  intros F. split.
  - destruct C, L. unfold vclist, col_list in F. vproj_in F. proj_in F. unfold pjc. vproj.
    repeat match goal with F : Forall2 rl (_ :: _) (_ :: _) |- _ => let R := fresh "R" in let F' := fresh in destruct (F2_cons _ _ _ _ _ F) as [[_ R] F']; clear F; rename F' into F end. subst. reflexivity.
  - clear - F. remember (col_list L) as l eqn:E. clear E. induction F as [|a x va l [H _] F IH]; constructor; assumption.
Qed.
Lemma pj_prepare A : Forall vok (vlist A) -> pjc p (prepareTheta A) = prepare_theta (pj p A) /\ Forall vok (vclist (prepareTheta A)).
Proof.
  intros H. apply rl_cols. destruct A as [Aba Abe Abi Abo Abu Aga Age Agi Ago Agu Aka Ake Aki Ako Aku Ama Ame Ami Amo Amu Asa Ase Asi Aso Asu]. unfold vlist in H. vproj_in H. opn H. start.
  unfold prepareTheta, prepare_theta, pj, vclist, col_list. cbv zeta. vproj. proj. rewrite !N.lxor_assoc. repeat (apply Forall2_cons; [rls|]). apply Forall2_nil.
Qed.
Lemma pj_round i A C : Forall vok (vlist A) -> Forall vok (vclist C) ->
  (pj p (fst (thetaRhoPiChiIotaPrepareTheta i A C)) = fst (theta_rho_pi_chi_iota_prepare_theta i (pj p A) (pjc p C)) /\
   Forall vok (vlist (fst (thetaRhoPiChiIotaPrepareTheta i A C)))) /\
  (pjc p (snd (thetaRhoPiChiIotaPrepareTheta i A C)) = snd (theta_rho_pi_chi_iota_prepare_theta i (pj p A) (pjc p C)) /\
   Forall vok (vclist (snd (thetaRhoPiChiIotaPrepareTheta i A C)))).
Proof.
  intros H HC. destruct A as [Aba Abe Abi Abo Abu Aga Age Agi Ago Agu Aka Ake Aki Ako Aku Ama Ame Ami Amo Amu Asa Ase Asi Aso Asu], C as [Ca Ce Ci Co Cu]. unfold vlist in H. vproj_in H. opn H. unfold vclist in HC. vproj_in HC. opn HC. start.
  unfold thetaRhoPiChiIotaPrepareTheta, theta_rho_pi_chi_iota_prepare_theta, pj at 2, pjc at 1. unfold pj at 2, pjc at 2. cbv beta iota zeta. vproj. split; [apply rl_lanes|apply rl_cols]; unfold vlist, lane_list, vclist, col_list; vproj; proj;
    repeat (apply Forall2_cons; [rls|]); apply Forall2_nil.
Qed.
Lemma pj_last i A C : Forall vok (vlist A) -> Forall vok (vclist C) ->
  pj p (thetaRhoPiChiIota i A C) = theta_rho_pi_chi_iota i (pj p A) (pjc p C) /\ Forall vok (vlist (thetaRhoPiChiIota i A C)).
Proof.
  intros H HC. apply rl_lanes. destruct A as [Aba Abe Abi Abo Abu Aga Age Agi Ago Agu Aka Ake Aki Ako Aku Ama Ame Ami Amo Amu Asa Ase Asi Aso Asu], C as [Ca Ce Ci Co Cu]. unfold vlist in H. vproj_in H. opn H. unfold vclist in HC. vproj_in HC. opn HC. start.
  unfold thetaRhoPiChiIota, theta_rho_pi_chi_iota, pj, pjc. cbv beta iota zeta. unfold vlist, lane_list. vproj. proj. repeat (apply Forall2_cons; [rls|]). apply Forall2_nil.
Qed.
Lemma pj_rounds A : Forall vok (vlist A) -> pj p (rounds24 A) = KeccakModel.rounds24 (pj p A) /\ Forall vok (vlist (rounds24 A)).
Proof.
  intros H. destruct (pj_prepare A H) as [E HC]. unfold rounds24, KeccakModel.rounds24. rewrite <- E. clear E. set (C := prepareTheta A) in *. clearbody C.
  do 23 (match goal with |- context [let (_, _) := thetaRhoPiChiIotaPrepareTheta ?i A C in _] =>
    let E1 := fresh in let E2 := fresh in let H' := fresh in let HC' := fresh in
    destruct (pj_round i A C H HC) as ((E1 & H') & (E2 & HC'));
    destruct (thetaRhoPiChiIotaPrepareTheta i A C) as [A' C']; destruct (theta_rho_pi_chi_iota_prepare_theta i (pj p A) (pjc p C)) as [L' LC'];
    cbn [fst snd] in E1, E2, H', HC'; subst L' LC'; clear A C H HC; rename A' into A; rename C' into C; rename H' into H; rename HC' into HC end).
  apply (pj_last 23 A C H HC).
Qed.
End Lane.
Definition p_of (k : nat) : V256 -> N := match k with 0 => w0 | 1 => w1 | 2 => w2 | _ => w3 end.
Theorem rounds_four k A : Forall vok (vlist A) -> pj (p_of k) (rounds24 A) = KeccakModel.rounds24 (pj (p_of k) A) /\ Forall vok (vlist (rounds24 A)).
Proof.
  apply pj_rounds; do 4 (try destruct k as [|k]); try (intros; reflexivity); intros a; intros;
    first [rewrite rol_eqN by assumption | rewrite rol8_eq by assumption | rewrite rol56_eq by assumption]; reflexivity.
Qed.
