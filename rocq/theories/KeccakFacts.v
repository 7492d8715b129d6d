(** The permutation of keccak/opt64 is KECCAK-f[1600] of FIPS 202. *)
From Coq Require Import Arith NArith List Bool Lia.
From Verif Require Import Prelude SpongeModel KeccakModel KeccakSpec.
Import ListNotations.

Definition b64 (a : N) : Prop := (a < 2 ^ 64)%N.
Definition bit (a : N) (z : nat) : bool := N.testbit a (N.of_nat z).
Lemma b64_bits a : b64 a <-> forall z, 64 <= z -> bit a z = false.
Proof.
  unfold b64, bit. split.
  - intros H z Hz. destruct (N.eq_dec a 0) as [->|Na]; [apply N.bits_0|]. apply N.bits_above_log2. apply N.log2_lt_pow2; [lia|].
    eapply N.lt_le_trans; [exact H|]. apply N.pow_le_mono_r; lia.
  - intros H. destruct (N.eq_dec a 0) as [->|Na]; [reflexivity|]. apply N.log2_lt_pow2; [lia|]. destruct (N.ltb_spec (N.log2 a) 64) as [L|L]; [exact L|].
    specialize (H (N.to_nat (N.log2 a)) ltac:(lia)). rewrite N2Nat.id, N.bit_log2 in H by exact Na. discriminate H.
Qed.
Lemma bit_lxor a b z : bit (N.lxor a b) z = xorb (bit a z) (bit b z).
Proof. apply N.lxor_spec. Qed.
Lemma bit_land a b z : bit (N.land a b) z = bit a z && bit b z.
Proof. apply N.land_spec. Qed.
Lemma bit_not64 a z : z < 64 -> bit (not64 a) z = negb (bit a z).
Proof. intros H. unfold bit, not64. apply N.lnot_spec_low. lia. Qed.
Lemma bit_not64_high a z : 64 <= z -> bit (not64 a) z = bit a z.
Proof. intros H. unfold bit, not64. apply N.lnot_spec_high. lia. Qed.
Lemma bit_rol64 a o z : b64 a -> 0 < o < 64 -> z < 64 -> bit (rol64 a o) z = bit a ((z + w - o) mod w).
Proof.
  intros Ha Ho Hz. unfold rol64. rewrite bit_lxor. unfold bit at 1 2. rewrite N.mod_pow2_bits_low by lia. rewrite N.shiftr_spec' .
  destruct (Nat.ltb_spec z o) as [L|L].
  - rewrite N.shiftl_spec_low by lia. rewrite xorb_false_l. unfold w. rewrite Nat.mod_small by lia. unfold bit. f_equal. lia.
  - rewrite N.shiftl_spec_high' by lia. assert (E : bit a (z + (64 - o)) = false) by (apply b64_bits; [exact Ha|lia]).
    unfold bit in E. replace (N.of_nat z + N.of_nat (64 - o))%N with (N.of_nat (z + (64 - o))) by lia. rewrite E, xorb_false_r.
    replace (z + w - o) with (z - o + 1 * w) by (unfold w; lia). rewrite Nat.mod_add by discriminate. unfold w. rewrite Nat.mod_small by lia. unfold bit. f_equal. lia.
Qed.
Lemma b64_lxor a b : b64 a -> b64 b -> b64 (N.lxor a b).
Proof. rewrite !b64_bits. intros A B z Hz. rewrite bit_lxor, A, B by exact Hz. reflexivity. Qed.
Lemma b64_land a b : b64 b -> b64 (N.land a b).
Proof. rewrite !b64_bits. intros B z Hz. rewrite bit_land, B by exact Hz. apply andb_false_r. Qed.
Lemma b64_rol64 a o : b64 a -> b64 (rol64 a o).
Proof.
  intros A. unfold rol64. apply b64_lxor.
  - unfold b64. apply N.mod_lt. discriminate.
  - unfold b64 in *. rewrite N.shiftr_div_pow2. eapply N.le_lt_trans; [|exact A]. apply N.div_le_upper_bound; [apply N.pow_nonzero; discriminate|]. 
    rewrite <- (N.mul_1_l a) at 1. apply N.mul_le_mono_r. assert (2 ^ N.of_nat (64 - o) <> 0)%N by (apply N.pow_nonzero; discriminate). lia.
Qed.
Lemma b64_const i : b64 (nth i round_constants 0%N).
Proof. do 24 (destruct i as [|i]; [reflexivity|]). destruct i; reflexivity. Qed.
Lemma const_bit i z : i < 24 -> z < 64 -> bit (nth i round_constants 0%N) z = RC i z.
Proof.
  intros Hi Hz. assert (X : forallb (fun i => forallb (fun z => Bool.eqb (bit (nth i round_constants 0%N) z) (RC i z)) (seq 0 64)) (seq 0 24) = true) by (vm_compute; reflexivity).
  rewrite forallb_forall in X. specialize (X i ltac:(apply in_seq; lia)). rewrite forallb_forall in X. specialize (X z ltac:(apply in_seq; lia)). apply eqb_prop. exact X.
Qed.

(** *** lanes as a state array *)
Definition lane_list (L : lanes) : list N :=
  [l_ba L; l_be L; l_bi L; l_bo L; l_bu L; l_ga L; l_ge L; l_gi L; l_go L; l_gu L; l_ka L; l_ke L; l_ki L; l_ko L; l_ku L; l_ma L; l_me L; l_mi L; l_mo L; l_mu L; l_sa L; l_se L; l_si L; l_so L; l_su L].
Definition col_list (C : cols) : list N := [l_ca C; l_ce C; l_ci C; l_co C; l_cu C].
Definition rep (L : lanes) (S : state) : Prop :=
  Forall b64 (lane_list L) /\ forall x y z, x < 5 -> y < 5 -> z < 64 -> bit (nth (5 * y + x) (lane_list L) 0%N) z = S x y z.
Definition parity (S : state) (x z : nat) : bool := xorb (xorb (xorb (xorb (S x 0 z) (S x 1 z)) (S x 2 z)) (S x 3 z)) (S x 4 z).
Definition repc (C : cols) (S : state) : Prop :=
  Forall b64 (col_list C) /\ forall x z, x < 5 -> z < 64 -> bit (nth x (col_list C) 0%N) z = parity S x z.

Lemma lt5 (P : nat -> Prop) : P 0 -> P 1 -> P 2 -> P 3 -> P 4 -> forall x, x < 5 -> P x.
Proof. intros H0 H1 H2 H3 H4 x Hx. do 5 (destruct x as [|x]; [assumption|]). lia. Qed.
Lemma lane_hyp L S : rep L S -> forall x y, x < 5 -> y < 5 -> b64 (nth (5 * y + x) (lane_list L) 0%N) /\ forall z, z < 64 -> bit (nth (5 * y + x) (lane_list L) 0%N) z = S x y z.
Proof.
  intros [A B] x y Hx Hy. split; [|intros z Hz; apply B; assumption]. rewrite Forall_forall in A. apply A. apply nth_In. change (length (lane_list L)) with 25. lia.
Qed.
Lemma col_hyp C S : repc C S -> forall x, x < 5 -> b64 (nth x (col_list C) 0%N) /\ forall z, z < 64 -> bit (nth x (col_list C) 0%N) z = parity S x z.
Proof.
  intros [A B] x Hx. split; [|intros z Hz; apply B; assumption]. rewrite Forall_forall in A. apply A. apply nth_In. change (length (col_list C)) with 5. lia.
Qed.
Ltac proj := cbn [l_ba l_be l_bi l_bo l_bu l_ga l_ge l_gi l_go l_gu l_ka l_ke l_ki l_ko l_ku l_ma l_me l_mi l_mo l_mu l_sa l_se l_si l_so l_su l_ca l_ce l_ci l_co l_cu fst snd].
Ltac proj_in H := cbn [l_ba l_be l_bi l_bo l_bu l_ga l_ge l_gi l_go l_gu l_ka l_ke l_ki l_ko l_ku l_ma l_me l_mi l_mo l_mu l_sa l_se l_si l_so l_su l_ca l_ce l_ci l_co l_cu fst snd] in H.
Lemma prepare_ok L S : rep L S -> repc (prepare_theta L) S.
Proof.
  intros [A B]. destruct L as [Aba Abe Abi Abo Abu Aga Age Agi Ago Agu Aka Ake Aki Ako Aku Ama Ame Ami Amo Amu Asa Ase Asi Aso Asu]. unfold lane_list in A, B. proj_in A. proj_in B.
  repeat (apply Forall_cons_iff in A; let X := fresh "Hb" in destruct A as [X A]).
  unfold prepare_theta, repc, col_list. proj. split.
  - repeat constructor; repeat apply b64_lxor; assumption.
  - intros x z Hx Hz. revert x Hx. unfold parity. apply lt5; cbn [nth]; rewrite !bit_lxor;
    repeat match goal with |- context [S ?x ?y z] => rewrite <- (B x y z) by (try lia; exact Hz) end; cbn [Nat.mul Nat.add nth]; reflexivity.
Qed.

(** *** one round, lane by lane *)
Ltac mods := repeat match goal with |- context [?a mod 5] => let v := eval vm_compute in (a mod 5) in change (a mod 5) with v end.
Ltac offs := repeat match goal with |- context [rho_offset ?a ?b] => let v := eval vm_compute in (rho_offset a b) in change (rho_offset a b) with v end.
Ltac b64s := repeat match goal with
  | |- b64 (N.lxor _ _) => apply b64_lxor
  | |- b64 (N.land _ _) => apply b64_land
  | |- b64 (rol64 _ _) => apply b64_rol64
  | |- b64 (nth _ round_constants _) => apply b64_const
  | |- b64 _ => assumption end.
Ltac sd := first [assumption | apply Nat.mod_upper_bound; discriminate | solve [b64s] | lia].
Ltac lane_bits i :=
  match goal with Hi : i < 24 |- _ =>
  rewrite ?bit_lxor, ?bit_land; repeat (rewrite bit_not64 by sd); repeat (rewrite bit_rol64 by sd); rewrite ?bit_lxor; repeat (rewrite bit_rol64 by sd);
  rewrite ?(const_bit i) by sd end.
Lemma mod0 z : z < 64 -> (z + w - 0) mod w = z.
Proof. intros H. unfold w. replace (z + 64 - 0) with (z + 1 * 64) by lia. rewrite Nat.mod_add, Nat.mod_small by lia. reflexivity. Qed.
Lemma round_ok i A C S : i < 24 -> rep A S -> repc C S ->
  rep (fst (theta_rho_pi_chi_iota_prepare_theta i A C)) (Rnd S i).
Proof.
  intros Hi HA HC. pose proof (lane_hyp A S HA) as LA. pose proof (col_hyp C S HC) as LC. clear HA HC.
  destruct A as [Aba Abe Abi Abo Abu Aga Age Agi Ago Agu Aka Ake Aki Ako Aku Ama Ame Ami Amo Amu Asa Ase Asi Aso Asu], C as [Ca Ce Ci Co Cu].
  unfold lane_list in LA. proj_in LA. unfold col_list in LC. proj_in LC.
  destruct (LC 0 ltac:(lia)) as [BCa HCa]. cbn [nth] in BCa, HCa.
  destruct (LC 1 ltac:(lia)) as [BCe HCe]. cbn [nth] in BCe, HCe.
  destruct (LC 2 ltac:(lia)) as [BCi HCi]. cbn [nth] in BCi, HCi.
  destruct (LC 3 ltac:(lia)) as [BCo HCo]. cbn [nth] in BCo, HCo.
  destruct (LC 4 ltac:(lia)) as [BCu HCu]. cbn [nth] in BCu, HCu.
  clear LC.
  destruct (LA 0 0 ltac:(lia) ltac:(lia)) as [Bba Hba]. cbn [nth Nat.mul Nat.add] in Bba, Hba.
  destruct (LA 1 0 ltac:(lia) ltac:(lia)) as [Bbe Hbe]. cbn [nth Nat.mul Nat.add] in Bbe, Hbe.
  destruct (LA 2 0 ltac:(lia) ltac:(lia)) as [Bbi Hbi]. cbn [nth Nat.mul Nat.add] in Bbi, Hbi.
  destruct (LA 3 0 ltac:(lia) ltac:(lia)) as [Bbo Hbo]. cbn [nth Nat.mul Nat.add] in Bbo, Hbo.
  destruct (LA 4 0 ltac:(lia) ltac:(lia)) as [Bbu Hbu]. cbn [nth Nat.mul Nat.add] in Bbu, Hbu.
  destruct (LA 0 1 ltac:(lia) ltac:(lia)) as [Bga Hga]. cbn [nth Nat.mul Nat.add] in Bga, Hga.
  destruct (LA 1 1 ltac:(lia) ltac:(lia)) as [Bge Hge]. cbn [nth Nat.mul Nat.add] in Bge, Hge.
  destruct (LA 2 1 ltac:(lia) ltac:(lia)) as [Bgi Hgi]. cbn [nth Nat.mul Nat.add] in Bgi, Hgi.
  destruct (LA 3 1 ltac:(lia) ltac:(lia)) as [Bgo Hgo]. cbn [nth Nat.mul Nat.add] in Bgo, Hgo.
  destruct (LA 4 1 ltac:(lia) ltac:(lia)) as [Bgu Hgu]. cbn [nth Nat.mul Nat.add] in Bgu, Hgu.
  destruct (LA 0 2 ltac:(lia) ltac:(lia)) as [Bka Hka]. cbn [nth Nat.mul Nat.add] in Bka, Hka.
  destruct (LA 1 2 ltac:(lia) ltac:(lia)) as [Bke Hke]. cbn [nth Nat.mul Nat.add] in Bke, Hke.
  destruct (LA 2 2 ltac:(lia) ltac:(lia)) as [Bki Hki]. cbn [nth Nat.mul Nat.add] in Bki, Hki.
  destruct (LA 3 2 ltac:(lia) ltac:(lia)) as [Bko Hko]. cbn [nth Nat.mul Nat.add] in Bko, Hko.
  destruct (LA 4 2 ltac:(lia) ltac:(lia)) as [Bku Hku]. cbn [nth Nat.mul Nat.add] in Bku, Hku.
  destruct (LA 0 3 ltac:(lia) ltac:(lia)) as [Bma Hma]. cbn [nth Nat.mul Nat.add] in Bma, Hma.
  destruct (LA 1 3 ltac:(lia) ltac:(lia)) as [Bme Hme]. cbn [nth Nat.mul Nat.add] in Bme, Hme.
  destruct (LA 2 3 ltac:(lia) ltac:(lia)) as [Bmi Hmi]. cbn [nth Nat.mul Nat.add] in Bmi, Hmi.
  destruct (LA 3 3 ltac:(lia) ltac:(lia)) as [Bmo Hmo]. cbn [nth Nat.mul Nat.add] in Bmo, Hmo.
  destruct (LA 4 3 ltac:(lia) ltac:(lia)) as [Bmu Hmu]. cbn [nth Nat.mul Nat.add] in Bmu, Hmu.
  destruct (LA 0 4 ltac:(lia) ltac:(lia)) as [Bsa Hsa]. cbn [nth Nat.mul Nat.add] in Bsa, Hsa.
  destruct (LA 1 4 ltac:(lia) ltac:(lia)) as [Bse Hse]. cbn [nth Nat.mul Nat.add] in Bse, Hse.
  destruct (LA 2 4 ltac:(lia) ltac:(lia)) as [Bsi Hsi]. cbn [nth Nat.mul Nat.add] in Bsi, Hsi.
  destruct (LA 3 4 ltac:(lia) ltac:(lia)) as [Bso Hso]. cbn [nth Nat.mul Nat.add] in Bso, Hso.
  destruct (LA 4 4 ltac:(lia) ltac:(lia)) as [Bsu Hsu]. cbn [nth Nat.mul Nat.add] in Bsu, Hsu.
  clear LA. unfold theta_rho_pi_chi_iota_prepare_theta, rep. split.
  - unfold lane_list. proj. cbv zeta. do 25 (apply Forall_cons; [b64s|]). apply Forall_nil.
  - intros x y z Hx Hy Hz. unfold lane_list. proj. cbv zeta. 
    assert (Vx : x = 0 \/ x = 1 \/ x = 2 \/ x = 3 \/ x = 4) by lia. assert (Vy : y = 0 \/ y = 1 \/ y = 2 \/ y = 3 \/ y = 4) by lia. clear Hx Hy.
    destruct Vx as [->|[->|[->|[->| ->]]]]; destruct Vy as [->|[->|[->|[->| ->]]]]; cbn [nth Nat.mul Nat.add]; unfold Rnd, iota; cbn [Nat.eqb andb]; unfold chi, pi, rho, theta; mods; offs;
    rewrite ?(mod0 z Hz); lane_bits i;
    rewrite ?Hba, ?Hbe, ?Hbi, ?Hbo, ?Hbu, ?Hga, ?Hge, ?Hgi, ?Hgo, ?Hgu, ?Hka, ?Hke, ?Hki, ?Hko, ?Hku, ?Hma, ?Hme, ?Hmi, ?Hmo, ?Hmu, ?Hsa, ?Hse, ?Hsi, ?Hso, ?Hsu, ?HCa, ?HCe, ?HCi, ?HCo, ?HCu by sd;
    reflexivity.
Qed.
Lemma round_cols i A C : snd (theta_rho_pi_chi_iota_prepare_theta i A C) = prepare_theta (fst (theta_rho_pi_chi_iota_prepare_theta i A C)).
Proof. destruct A, C. reflexivity. Qed.
Lemma round_last i A C : theta_rho_pi_chi_iota i A C = fst (theta_rho_pi_chi_iota_prepare_theta i A C).
Proof. destruct A, C. reflexivity. Qed.
Definition round (i : nat) (A : lanes) : lanes := fst (theta_rho_pi_chi_iota_prepare_theta i A (prepare_theta A)).
Lemma round_rep i A S : i < 24 -> rep A S -> rep (round i A) (Rnd S i).
Proof. intros Hi HA. apply round_ok; [exact Hi|exact HA|]. apply prepare_ok. exact HA. Qed.
Lemma step_eq i A : theta_rho_pi_chi_iota_prepare_theta i A (prepare_theta A) = (round i A, prepare_theta (round i A)).
Proof. unfold round. rewrite <- round_cols. apply surjective_pairing. Qed.
Lemma round_last' i A : theta_rho_pi_chi_iota i A (prepare_theta A) = round i A.
Proof. apply round_last. Qed.
Lemma rounds24_eq A : rounds24 A = fold_left (fun A i => round i A) (seq 0 24) A.
Proof. unfold rounds24. cbv zeta. do 23 (rewrite step_eq; cbv beta iota). rewrite round_last'. cbn [seq fold_left]. reflexivity. Qed.
Lemma rounds_rep k : forall j A S, j + k <= 24 -> rep A S -> rep (fold_left (fun A i => round i A) (seq j k) A) (fold_left Rnd (seq j k) S).
Proof. induction k; intros j A S Hk HA; cbn [seq fold_left]; [exact HA|]. apply IHk; [lia|]. apply round_rep; [lia|exact HA]. Qed.
Lemma rounds24_rep A S : rep A S -> rep (rounds24 A) (fold_left Rnd (seq 0 24) S).
Proof. rewrite rounds24_eq. apply rounds_rep. lia. Qed.
