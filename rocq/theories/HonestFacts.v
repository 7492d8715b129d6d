(** banquet_sign returns the signature that HonestSpec describes, and there is only one. *)
From Coq Require Import Arith NArith List Bool Lia.
From Verif Require Import Prelude FieldModel FieldSpec FieldApi FieldLin PolyModel Instances HashModel TreeModel TreeSpec TreeProofs TreeExpand TreeApi TreeRev AesSpec AesModel AesBase AesApi AesShares BanquetModel ContainerModel ListSum BanquetHash BanquetPure BanquetVerify BanquetSign BanquetPoly BanquetCtx BanquetRun BanquetApi ChallengeFacts HashFacts Serialize ShareFacts SigSpec VerifyTree VerifyFacts VerifyOutcome FreeSpec HonestSpec.
Import ListNotations.

Arguments hr_coef {H I c salt h1 h3 root key pt s t e pf x}. Arguments hr_hidden {H I c salt h1 h3 root key pt s t e pf x}.
Arguments hr_root {H I c salt h1 h3 root key pt s t e pf x}. Arguments hr_child {H I c salt h1 h3 root key pt s t e pf x}.
Arguments hr_com {H I c salt h1 h3 root key pt s t e pf x}. Arguments hr_tape {H I c salt h1 h3 root key pt s t e pf x}.
Arguments hr_reveal {H I c salt h1 h3 root key pt s t e pf x}. Arguments hr_C {H I c salt h1 h3 root key pt s t e pf x}.
Arguments hr_key_delta {H I c salt h1 h3 root key pt s t e pf x}. Arguments hr_t_delta {H I c salt h1 h3 root key pt s t e pf x}.
Arguments hr_key {H I c salt h1 h3 root key pt s t e pf x}. Arguments hr_inv {H I c salt h1 h3 root key pt s t e pf x}.
Arguments hr_aes {H I c salt h1 h3 root key pt s t e pf x}. Arguments hr_polys {H I c salt h1 h3 root key pt s t e pf x}.
Arguments hr_S {H I c salt h1 h3 root key pt s t e pf x}. Arguments hr_T {H I c salt h1 h3 root key pt s t e pf x}.
Arguments hr_P {H I c salt h1 h3 root key pt s t e pf x}.
Arguments pr_salt {H I c key pt ct s t msg sig X}. Arguments pr_h1 {H I c key pt ct s t msg sig X}. Arguments pr_h3 {H I c key pt ct s t msg sig X}.
Arguments pr_len {H I c key pt ct s t msg sig X}. Arguments pr_points {H I c key pt ct s t msg sig X}. Arguments pr_reps {H I c key pt ct s t msg sig X}.

(** *** the reveal list of a full tree *)
Section Reveal.
Variables (N k0 m : nat).
Hypothesis HL : leaves_ok N.
Hypothesis HP : N = 2 ^ k0.
Hypothesis Hm : m < N.
Notation leaf := (first_leaf N + m).
Lemma dpow : depth N = k0.
Proof. exact (depth_pow N k0 HP). Qed.
Lemma tpow : 2 ^ depth N - 1 + N = 2 * N - 1.
Proof. exact (total_pow N k0 HP). Qed.
Lemma full_exists k : k < 2 * N - 1 -> exf N k = true.
Proof.
  intros Hk. unfold exf. rewrite dpow. apply Nat.ltb_lt. rewrite HP at 1.
  assert (A : Nat.log2 (k + 1) <= k0).
  { assert (Nat.log2 (k + 1) < S k0); [|lia]. apply Nat.log2_lt_pow2; [lia|]. cbn [Nat.pow]. lia. }
  pose proof (Nat.log2_spec (k + 1) ltac:(lia)) as [_ B].
  assert (C : 2 ^ S (Nat.log2 (k + 1)) * 2 ^ (k0 - Nat.log2 (k + 1)) = 2 ^ k0 + 2 ^ k0).
  { rewrite <- Nat.pow_add_r. replace (S (Nat.log2 (k + 1)) + (k0 - Nat.log2 (k + 1))) with (S k0) by lia. cbn [Nat.pow]. lia. }
  pose proof (Nat.pow_nonzero 2 (k0 - Nat.log2 (k + 1)) ltac:(lia)). nia.
Qed.
Lemma sibling_lt i : i < depth N -> sibling (Nat.iter i parent leaf) < 2 * N - 1.
Proof.
  intros Hi. set (a := Nat.iter i parent leaf).
  assert (LL : length (path leaf) = depth N) by (apply leaf_len; assumption).
  assert (Z : a <> 0) by (apply iter_nz; rewrite LL; exact Hi).
  assert (X : exf N a = true).
  { apply (ancestor_exists N ltac:(apply HL) a leaf); [apply iter_anc; rewrite LL; lia|apply leaf_exists; [apply HL|exact Hm]]. }
  pose proof (ex_lt_total N ltac:(apply HL) a X) as L. rewrite tpow in L.
  unfold sibling. destruct (Nat.even a) eqn:Ev; [lia|].
  assert (O : Nat.odd a = true) by (unfold Nat.odd; rewrite Ev; reflexivity). apply Nat.odd_spec in O. destruct O as [q ->]. lia.
Qed.
Lemma sib_of_full i : i < depth N -> sib_of N m i = sibling (Nat.iter i parent leaf) /\ sib_of N m i <> 0.
Proof.
  intros Hi. pose proof (sibling_lt i Hi) as L.
  assert (LL : length (path leaf) = depth N) by (apply leaf_len; assumption).
  assert (Z : Nat.iter i parent leaf <> 0) by (apply iter_nz; rewrite LL; exact Hi).
  assert (Q : sib_of N m i = sibling (Nat.iter i parent leaf)).
  { unfold sib_of, get_sibling. fold (first_leaf N). rewrite iter_path by (rewrite LL; exact Hi). unfold sibling in *. unfold Nat.odd.
    destruct (Nat.even (Nat.iter i parent leaf)); cbn [negb]; [reflexivity|]. unfold first_leaf at 2. rewrite tpow.
    apply Nat.ltb_lt in L. rewrite L. reflexivity. }
  split; [exact Q|]. rewrite Q. apply sib_parent. exact Z.
Qed.
Lemma reveal_list H salt rep seed t0 entries : 1 <= length seed <= 32 -> wide N -> seed_tree H salt rep seed N = Ok t0 ->
  reveal_all_but t0 m = Ok (entries, m) ->
  entries = map (fun i => node_seed H salt rep seed (sibling (Nat.iter i parent leaf))) (seq 0 (depth N)).
Proof.
  intros Hs Hw Et Er. destruct (seed_tree_ok H salt rep N seed HL Hs Hw) as (t & E1 & T1 & V1). rewrite Et in E1. injection E1 as <-.
  destruct (reveal_ok N (length seed) t0 m ltac:(apply HL) T1 Hm) as (en & E2 & [L2 _] & V2). rewrite Er in E2. injection E2 as <-.
  apply (@nth_ext bytes _ _ [] []); [rewrite length_map_seq; exact L2|]. intros i Hi. rewrite L2 in Hi. rewrite nth_map_seq by exact Hi.
  destruct (sib_of_full i Hi) as [Q Z]. pose proof (sibling_lt i Hi) as L. rewrite <- Q in L |- *.
  destruct (V2 i Hi) as [(_ & B & _ & ->)|(A & _)].
  - apply V1. exact B.
  - exfalso. apply A. split; [exact Z|apply full_exists; exact L].
Qed.
End Reveal.

Section Facts.
Variables (H : oracle) (I : instance) (c : fctx) (nk k0 : nat).
Hypothesis OK : inst_ok I c nk.
Hypothesis HP : num_parties I = 2 ^ k0.
Hypothesis Hk8 : k0 <= 8.
Let HI := io_field _ _ _ OK.
Notation E := (elt (lambda I)).
Notation ks := (key_size (i_aes I)).
Notation sb := (num_sboxes (i_aes I)).
Notation lam := (lambda I).
Notation n := (num_parties I).
Notation M1 := (m1 I).
Notation M2 := (m2 I).
Notation T := (num_rounds I).
Notation H0 := (horner gadd (gmul c)).
Notation point k := (nth k (get_first_n_field_elements c (2 * M2 + 1)) 0%N).
Variables (pre1 pre2 : list (list N)).
Hypothesis G1 : lagr lam c (xs1 I c) pre1.
Hypothesis G2 : lagr lam c (xs2 I c) pre2.

(** *** polynomials are determined by their values *)
Lemma poly_agree xs pre f g : lagr lam c xs pre -> length f = length xs -> length g = length xs -> Forall E f -> Forall E g ->
  (forall k, k < length xs -> H0 f (nth k xs 0%N) = H0 g (nth k xs 0%N)) -> forall y, E y -> H0 f y = H0 g y.
Proof.
  intros G Lf Lg Ef Eg V y Hy. rewrite <- (lg_value _ _ _ _ G f y Lf Ef Hy), <- (lg_value _ _ _ _ G g y Lg Eg Hy). apply gsum_ext. intros k Hk. rewrite V by exact Hk. reflexivity.
Qed.
Lemma poly_agree1 f g : poly I (M2 + 1) f -> poly I (M2 + 1) g -> (forall k, k < M2 -> H0 f (point k) = H0 g (point k)) -> H0 f (point M2) = H0 g (point M2) ->
  forall y, E y -> H0 f y = H0 g y.
Proof.
  intros [Lf Ef] [Lg Eg] V VM. pose proof (len1 I c nk OK) as L. apply (poly_agree (xs1 I c) pre1 f g G1); try assumption; try lia.
  intros k Hk. rewrite (xs_prefix I c k) by lia. destruct (Nat.eq_dec k M2) as [->|Ne]; [exact VM|]. apply V. lia.
Qed.
Lemma through_fun xs pre ys R a b : lagr lam c xs pre -> E R -> through I c xs ys R a -> through I c xs ys R b -> a = b.
Proof.
  intros G HR (f & Lf & Ef & Vf & <-) (g & Lg & Eg & Vg & <-). apply (poly_agree xs pre f g G); try assumption. intros k Hk.
  assert (A : nth k (map (H0 f) xs) (H0 f 0%N) = nth k (map (H0 g) xs) (H0 f 0%N)) by (rewrite Vf, Vg; reflexivity).
  rewrite map_nth in A. rewrite (nth_indep (map (H0 g) xs) _ (H0 g 0%N)), map_nth in A by (rewrite map_length; exact Hk). exact A.
Qed.

(** *** two descriptions of the same repetition agree *)
Section Two.
Set Implicit Arguments. Unset Strict Implicit.
Variables (salt h1 h3 h1' h3' root key pt s t : bytes) (e : nat) (pf pf' : rep_proof) (x x' : rep_values).
Hypothesis A : honest_rep H I c salt h1 h3 root key pt s t e pf x.
Hypothesis B : honest_rep H I c salt h1' h3' root key pt s t e pf' x'.
Lemma same_node k : k < 2 * n - 1 -> x_node x k = x_node x' k.
Proof.
  induction k as [k IH] using lt_wf_ind. intros Hk. destruct (Nat.eq_dec k 0) as [->|Z].
  - rewrite (hr_root A), (hr_root B). reflexivity.
  - rewrite (hr_child A), (hr_child B) by lia. pose proof (parent_lt k Z). rewrite IH by lia. reflexivity.
Qed.
Lemma leaf_lt p : p < n -> first_leaf n + p < 2 * n - 1.
Proof. intros Hp. unfold first_leaf. rewrite (depth_pow n k0 HP), <- HP. lia. Qed.
Lemma same_com p : p < n -> x_com x p = x_com x' p.
Proof. intros Hp. rewrite (hr_com A), (hr_com B) by exact Hp. rewrite same_node by (apply leaf_lt; exact Hp). reflexivity. Qed.
Lemma same_tape p : p < n -> x_tape x p = x_tape x' p.
Proof. intros Hp. rewrite (hr_tape A), (hr_tape B) by exact Hp. rewrite same_node by (apply leaf_lt; exact Hp). reflexivity. Qed.
Lemma same_tape_bytes off len : tape_bytes I x off len = tape_bytes I x' off len.
Proof. unfold tape_bytes. f_equal. apply map_seq_ext. intros p Hp. rewrite same_tape by lia. reflexivity. Qed.
Lemma same_tape_sum off : tape_sum I x off = tape_sum I x' off.
Proof. unfold tape_sum. f_equal. apply map_seq_ext. intros p Hp. rewrite same_tape by lia. reflexivity. Qed.
Lemma same_key_delta : p_sk_delta pf = p_sk_delta pf'.
Proof. rewrite (hr_key_delta A), (hr_key_delta B), same_tape_bytes. reflexivity. Qed.
Lemma same_t_delta : p_t_delta pf = p_t_delta pf'.
Proof. rewrite (hr_t_delta A), (hr_t_delta B), same_tape_bytes. reflexivity. Qed.
Lemma same_key p : p < n -> x_key x p = x_key x' p.
Proof. intros Hp. rewrite (hr_key A), (hr_key B) by exact Hp. rewrite same_tape, same_key_delta by exact Hp. reflexivity. Qed.
Lemma same_inv p : p < n -> x_inv x p = x_inv x' p.
Proof. intros Hp. rewrite (hr_inv A), (hr_inv B) by exact Hp. rewrite same_tape, same_t_delta by exact Hp. reflexivity. Qed.
Lemma same_out p : p < n -> x_out x p = x_out x' p /\ x_in x p = x_in x' p.
Proof.
  intros Hp. pose proof (hr_aes A) as P. pose proof (hr_aes B) as Q.
  rewrite (map_seq_ext (x_key x) (x_key x')) in P by (intros; apply same_key; lia). rewrite (map_seq_ext (x_inv x) (x_inv x')) in P by (intros; apply same_inv; lia).
  rewrite P in Q. injection Q as Q.
  assert (R : nth p (map (fun p => (x_out x p, x_in x p)) (seq 0 n)) ([], []) = nth p (map (fun p => (x_out x' p, x_in x' p)) (seq 0 n)) ([], [])) by (rewrite Q; reflexivity).
  rewrite !nth_map_seq in R by exact Hp. injection R as R1 R2. auto.
Qed.
(** ... with the same first challenge *)
Hypothesis H1 : h1 = h1'.
Lemma same_coef : x_coef x = x_coef x'.
Proof. rewrite (hr_coef A), (hr_coef B), H1. reflexivity. Qed.
Lemma same_polys : p_P_delta pf = p_P_delta pf' /\
  (x_point x = x_point x' -> E (x_point x) -> p_S_at_R pf = p_S_at_R pf' /\ p_T_at_R pf = p_T_at_R pf' /\ p_P_at_R pf = p_P_at_R pf').
Proof.
  destruct (hr_polys A) as (S1 & T1 & P1 & A1 & A2 & A3 & A4 & A5 & A6 & A7 & A8).
  destruct (hr_polys B) as (S2 & T2 & P2 & B1 & B2 & B3 & B4 & B5 & B6 & B7 & B8).
  assert (QS : forall j, j < M1 -> forall y, E y -> H0 (S1 j) y = H0 (S2 j) y).
  { intros j Hj. destruct (A1 j Hj) as (U1 & U2 & U3). destruct (B1 j Hj) as (V1 & V2 & V3). apply poly_agree1; try assumption.
    - intros k Hk. rewrite U2, V2, same_coef by exact Hk. reflexivity.
    - rewrite U3, V3. apply same_tape_sum. }
  assert (QT : forall j, j < M1 -> forall y, E y -> H0 (T1 j) y = H0 (T2 j) y).
  { intros j Hj. destruct (A2 j Hj) as (U1 & U2 & U3). destruct (B2 j Hj) as (V1 & V2 & V3). apply poly_agree1; try assumption.
    - intros k Hk. rewrite U2, V2 by exact Hk. reflexivity.
    - rewrite U3, V3. apply same_tape_sum. }
  assert (QP : forall y, E y -> H0 P1 y = H0 P2 y).
  { intros y Hy. rewrite A4, B4 by exact Hy. f_equal. apply map_seq_ext. intros j Hj. rewrite QS, QT by (lia || exact Hy). reflexivity. }
  split.
  - rewrite A5, B5. apply map_seq_ext. intros k Hk. rewrite QP, same_tape_sum by (apply (xs2_elt I c nk OK); lia). reflexivity.
  - intros R ER. rewrite A6, A7, A8, B6, B7, B8, <- R. repeat split.
    + apply map_seq_ext. intros j Hj. apply QS; [lia|exact ER].
    + apply map_seq_ext. intros j Hj. apply QT; [lia|exact ER].
    + apply QP. exact ER.
Qed.
(** ... and the same evaluation point *)
Hypothesis HR : x_point x = x_point x'.
Hypothesis ER : E (x_point x).
Lemma same_S p j : p < n -> j < M1 -> x_S x p j = x_S x' p j.
Proof.
  intros Hp Hj. pose proof (hr_S A p j Hp Hj) as P. pose proof (hr_S B p j Hp Hj) as Q.
  rewrite same_coef, same_tape, (proj2 (same_out Hp)), HR in P by exact Hp. rewrite HR in ER. exact (through_fun _ _ _ _ _ _ G1 ER P Q).
Qed.
Lemma same_T p j : p < n -> j < M1 -> x_T x p j = x_T x' p j.
Proof.
  intros Hp Hj. pose proof (hr_T A p j Hp Hj) as P. pose proof (hr_T B p j Hp Hj) as Q.
  rewrite same_tape, same_inv, HR in P by exact Hp. rewrite HR in ER. exact (through_fun _ _ _ _ _ _ G1 ER P Q).
Qed.
Lemma same_P p : p < n -> x_P x p = x_P x' p.
Proof.
  intros Hp. pose proof (hr_P A p Hp) as P. pose proof (hr_P B p Hp) as Q.
  rewrite same_coef, (proj1 same_polys), same_tape, HR in P by exact Hp. rewrite HR in ER. exact (through_fun _ _ _ _ _ _ G2 ER P Q).
Qed.
(** ... and the same last challenge *)
Hypothesis H3 : h3 = h3'.
Lemma same_proof : pf = pf'.
Proof.
  pose proof same_polys as [P1 P2]. destruct (P2 HR ER) as (P3 & P4 & P5).
  assert (Eh : x_hidden x = x_hidden x') by (rewrite (hr_hidden A), (hr_hidden B), H3; reflexivity).
  assert (Lh : x_hidden x < n).
  { rewrite (hr_hidden A). pose proof (n_pos I c nk OK). assert (N.of_nat n <> 0)%N by lia.
    pose proof (N.mod_lt (H (digest_size I =? 32) h3 e mod 256) (N.of_nat n) ltac:(assumption)). lia. }
  assert (Rv : p_reveal pf = p_reveal pf').
  { rewrite (hr_reveal A), (hr_reveal B), <- Eh. f_equal. apply map_seq_ext. intros i Hi.
    apply same_node. apply (sibling_lt n k0 _ (io_leaves _ _ _ OK) HP Lh). lia. }
  assert (Cv : p_C pf = p_C pf') by (rewrite (hr_C A), (hr_C B), <- Eh; apply same_com; exact Lh).
  pose proof same_key_delta as K. pose proof same_t_delta as Kt. clear - P1 P3 P4 P5 Rv Cv K Kt. destruct pf, pf'. cbn in *. congruence.
Qed.
End Two.
Unset Implicit Arguments.

(** *** a signature is determined *)
Section Sigs.
Variables (key pt ct s t msg : bytes) (sig sig' : signature) (X X' : nat -> rep_values).
Hypothesis A : prescribed H I c key pt ct s t msg sig X.
Notation SaltOf := (stream H (digest_size I =? 32) (root_input I key (pt ++ ct) msg) 0 32).
Notation RootOf e := (stream H (digest_size I =? 32) (root_input I key (pt ++ ct) msg) (32 + e * seed_size I) (seed_size I)).
Lemma pr_point_E e : e < T -> E (x_point (X e)).
Proof.
  intros He. destruct (pr_points A) as [M EM].
  assert (P : In (x_point (X e)) (map (fun e => x_point (X e)) (seq 0 T))) by (apply (in_map (fun e => x_point (X e))), in_seq; lia).
  rewrite EM in P. apply filter_In in P. destruct P as [P _]. apply in_map_iff in P. destruct P as (k & <- & _).
  apply (api_bytes _ _ HI); [apply stream_bytes|apply stream_length].
Qed.
(** up to the second challenge, from the relations of the first steps alone *)
Lemma same_h1 (PF : nat -> rep_proof) (h1 h3 : bytes) : s_salt sig = SaltOf ->
  (forall e, e < T -> honest_rep H I c SaltOf h1 h3 (RootOf e) key pt s t e (PF e) (X' e)) ->
  h1 = digest H I (h1_input I SaltOf (pt ++ ct) msg PF X') -> h1 = s_h1 sig.
Proof.
  intros Es B ->. rewrite (pr_h1 A). f_equal. unfold h1_input. rewrite Es. do 4 f_equal. f_equal. apply map_seq_ext. intros e He.
  pose proof (B e ltac:(lia)) as Be. pose proof (pr_reps A e ltac:(lia)) as Ae. rewrite Es in Ae.
  rewrite (same_key_delta Be Ae), (same_t_delta Be Ae). f_equal. f_equal. apply map_seq_ext. intros p Hp.
  rewrite (same_com Be Ae), (proj1 (same_out Be Ae (p := p) ltac:(lia))) by lia. reflexivity.
Qed.
Lemma same_h2 (PF : nat -> rep_proof) (h1 h3 : bytes) :
  (forall e, e < T -> honest_rep H I c SaltOf h1 h3 (RootOf e) key pt s t e (PF e) (X' e)) ->
  h1 = digest H I (h1_input I SaltOf (pt ++ ct) msg PF X') -> digest H I (h2_input I SaltOf h1 PF) = h2_of H I sig.
Proof.
  intros B E1. pose proof (pr_salt A) as Es. pose proof (same_h1 PF h1 h3 Es B E1) as E2. unfold h2_of, h2_input. rewrite Es, E2.
  f_equal. do 3 f_equal. f_equal. apply map_seq_ext. intros e He. f_equal. apply map_seq_ext. intros k Hk.
  pose proof (B e ltac:(lia)) as Be. pose proof (pr_reps A e ltac:(lia)) as Ae. rewrite Es in Ae.
  rewrite (proj1 (same_polys Be Ae E2)). reflexivity.
Qed.
Hypothesis B : prescribed H I c key pt ct s t msg sig' X'.
Lemma same_sig : sig = sig'.
Proof.
  pose proof (pr_salt A) as Ea. pose proof (pr_salt B) as Eb.
  assert (Be : forall e, e < T -> honest_rep H I c SaltOf (s_h1 sig') (s_h3 sig') (RootOf e) key pt s t e (pf_of sig' e) (X' e)).
  { intros e He. rewrite <- Eb at 1. apply (pr_reps B e He). }
  assert (Ae : forall e, e < T -> honest_rep H I c SaltOf (s_h1 sig) (s_h3 sig) (RootOf e) key pt s t e (pf_of sig e) (X e)).
  { intros e He. rewrite <- Ea at 1. apply (pr_reps A e He). }
  assert (E1 : s_h1 sig' = s_h1 sig). { apply (same_h1 (pf_of sig') _ (s_h3 sig') Ea Be). rewrite <- Eb. apply (pr_h1 B). }
  assert (E2 : h2_of H I sig' = h2_of H I sig). { unfold h2_of at 1. rewrite Eb. apply (same_h2 (pf_of sig') _ (s_h3 sig') Be). rewrite <- Eb. apply (pr_h1 B). }
  assert (ER : forall e, e < T -> x_point (X' e) = x_point (X e)).
  { destruct (pr_points A) as [Ma Pa]. destruct (pr_points B) as [Mb Pb].
    assert (Q : map (fun e => x_point (X' e)) (seq 0 T) = map (fun e => x_point (X e)) (seq 0 T)).
    { rewrite Pa, Pb. unfold candidate in *. rewrite E2 in *. apply filter_prefix. rewrite <- Pa, <- Pb, !length_map_seq. reflexivity. }
    intros e He. assert (R : nth e (map (fun e => x_point (X' e)) (seq 0 T)) 0%N = nth e (map (fun e => x_point (X e)) (seq 0 T)) 0%N) by (rewrite Q; reflexivity).
    rewrite !nth_map_seq in R by exact He. exact R. }
  assert (EE : forall e, e < T -> E (x_point (X' e))) by (intros e He; rewrite ER by exact He; apply pr_point_E; exact He).
  assert (E3 : s_h3 sig' = s_h3 sig).
  { rewrite (pr_h3 A), (pr_h3 B), Ea, Eb, E2. f_equal. unfold h3_input. do 3 f_equal. f_equal. apply map_seq_ext. intros e He0.
    assert (He : e < T) by lia. clear He0. cbv zeta. pose proof (Be e He) as P. pose proof (Ae e He) as Q.
    destruct (proj2 (same_polys P Q E1) (ER e He) (EE e He)) as (R1 & R2 & R3). rewrite R1, R2, R3. f_equal. f_equal.
    - f_equal. apply map_seq_ext. intros p Hp. f_equal. apply (same_P P Q E1 (ER e He) (EE e He)). lia.
    - f_equal. apply map_seq_ext. intros j Hj. do 2 f_equal. f_equal. apply map_seq_ext. intros p Hp. f_equal; f_equal.
      + apply (same_S P Q E1 (ER e He) (EE e He)); lia.
      + apply (same_T P Q (ER e He) (EE e He)); lia. }
  assert (E4 : s_proofs sig = s_proofs sig').
  { apply (@nth_ext rep_proof _ _ (mkProof ([], 0) [] [] [] [] 0%N [] []) (mkProof ([], 0) [] [] [] [] 0%N [] [])).
    - rewrite (pr_len A), (pr_len B). reflexivity.
    - intros e He. rewrite (pr_len A) in He. symmetry.
      apply (same_proof (Be e He) (Ae e He) E1 (ER e He) (EE e He) E3). }
  clear - Ea Eb E1 E3 E4. destruct sig, sig'. cbn in *. congruence.
Qed.
End Sigs.
End Facts.

(** *** sampling that does not end within the fuel *)
Section Stuck.
Variables (H : oracle) (I : instance) (c : fctx).
Hypothesis HI : init_extension_field (lambda I) = Ok c.
Variable forb : list N.
Hypothesis Lf : length forb = m2 I.
Variables (v : bool) (m : bytes).
Notation cand k := (from_bytes (stream H v m (k * lambda I) (lambda I))).
Notation good := (fun x => negb (existsb (N.eqb x) forb)).
Lemma sample_Rs_few fuel : forall n k, sample_Rs H I c fuel forb n (mkCtx v m (Some (k * lambda I))) = OutOfFuel ->
  exists a, (forall i, i < fuel -> In (cand (k + a + i)) forb) /\ length (filter good (map (fun i => cand i) (seq k a))) < n.
Proof.
  induction n; intros k; cbn [sample_Rs]; [discriminate|]. destruct (sample_R_stuck H I c HI forb Lf v m fuel k) as [[-> B]|(x & k' & E)].
  - intros _. exists 0. split; [|cbn; lia]. intros i Hi. rewrite Nat.add_0_r. apply B. exact Hi.
  - rewrite E. cbn [bind]. destruct (sample_R_filter H I c HI v m forb Lf fuel k x _ E) as (b & Eb & F). injection Eb as Eb.
    intros X. assert (Y : sample_Rs H I c fuel forb n (mkCtx v m (Some ((k + b) * lambda I))) = OutOfFuel).
    { rewrite <- Eb. destruct (sample_Rs H I c fuel forb n (mkCtx v m (Some (k' * lambda I)))); cbn [bind] in X; try discriminate X. reflexivity. }
    destruct (IHn _ Y) as (a & A1 & A2). exists (b + a). split.
    + intros i Hi. rewrite Nat.add_assoc. apply A1. exact Hi.
    + rewrite seq_app, map_app, filter_app, app_length. change (map (fun i => cand i) (seq k b)) with (map (relt H I v m) (seq k b)). rewrite F. cbn [length]. lia.
Qed.
Lemma filter_none l : (forall x, In x l -> In x forb) -> filter good l = [].
Proof.
  induction l as [|x l IH]; intros A; [reflexivity|]. cbn [filter]. assert (Ex : existsb (N.eqb x) forb = true) by (apply existsb_exists; exists x; split; [apply A; left; reflexivity|apply N.eqb_refl]).
  rewrite Ex. apply IH. intros y Hy. apply A. right. exact Hy.
Qed.
Lemma sample_Rs_enough fuel n M : M <= fuel -> n <= length (filter good (map (fun i => cand i) (seq 0 M))) ->
  sample_Rs H I c fuel forb n (mkCtx v m (Some 0)) <> OutOfFuel.
Proof.
  intros Hf Hn X. destruct (sample_Rs_few fuel n 0 X) as (a & A1 & A2).
  assert (Q : filter good (map (fun i => cand i) (seq 0 (a + fuel))) = filter good (map (fun i => cand i) (seq 0 a))).
  { rewrite seq_app, map_app, filter_app, (filter_none (map _ (seq (0 + a) fuel))); [apply app_nil_r|]. intros x Hx. apply in_map_iff in Hx. destruct Hx as (i & <- & Hi).
    apply in_seq in Hi. replace i with (0 + a + (i - a)) by lia. apply A1. lia. }
  assert (P : length (filter good (map (fun i => cand i) (seq 0 M))) <= length (filter good (map (fun i => cand i) (seq 0 (a + fuel))))).
  { replace (a + fuel) with (M + (a + fuel - M)) by lia. rewrite (seq_app M), map_app, filter_app, app_length. lia. }
  rewrite Q in P. lia.
Qed.
End Stuck.

Section Exist.
Variables (H : oracle) (I : instance) (c : fctx) (nk k0 : nat).
Hypothesis OK : inst_ok I c nk.
Hypothesis HP : num_parties I = 2 ^ k0.
Hypothesis Hk8 : k0 <= 8.
Let HI := io_field _ _ _ OK.
Notation E := (elt (lambda I)).
Notation ks := (key_size (i_aes I)).
Notation sb := (num_sboxes (i_aes I)).
Notation lam := (lambda I).
Notation n := (num_parties I).
Notation M1 := (m1 I).
Notation M2 := (m2 I).
Notation T := (num_rounds I).
Notation H0 := (horner gadd (gmul c)).
Notation point k := (nth k (get_first_n_field_elements c (2 * M2 + 1)) 0%N).
Variables (pre1 pre2 : list (list N)).
Hypothesis G1 : lagr lam c (xs1 I c) pre1.
Hypothesis G2 : lagr lam c (xs2 I c) pre2.
Variables (key pt ct0 ct s t : bytes).
Hypothesis KO : key_ok I nk key pt ct0 s t.
Hypothesis Hct : length ct = pt_size I.
Variable msg : bytes.
Notation salt := (sg_salt H I key pt ct msg).
Notation seed := (sg_seed H I key pt ct msg).
Notation tape := (sg_tape H I key pt ct msg).
Notation com := (sg_com H I key pt ct msg).
Notation skd := (sg_kd H I key pt ct msg).
Notation std := (sg_td H I key pt ct t msg).
Notation ss := (sg_s H I nk key pt ct t msg).
Notation st := (sg_t H I key pt ct t msg).
Notation bc := (sg_bc H I nk key pt ct t msg).
Notation view := (sg_view H I c nk pre1 pre2 key pt ct t msg).
Notation proof := (sg_proof H I c pre1 key pt ct s t msg).
Notation L1 R := (fun k => lag c pre1 k R).

(** the polynomial through values at the first m2+1 points *)
Definition fit (g : nat -> N) : list N :=
  match interpolate_with_precomputation (gops c) pre1 (map g (seq 0 (M2 + 1))) with Ok p => p | _ => [] end.
Lemma fit_ok g : (forall k, k < M2 + 1 -> E (g k)) -> poly I (M2 + 1) (fit g) /\ (forall k, k < M2 + 1 -> H0 (fit g) (point k) = g k) /\
  forall y, E y -> H0 (fit g) y = inner c (M2 + 1) (L1 y) g.
Proof.
  intros Hg. pose proof (len1 I c nk OK) as LL. destruct (lg_interp _ _ _ _ G1 (map g (seq 0 (M2 + 1)))) as (p & A & B & C & D).
  - rewrite length_map_seq. symmetry. exact LL.
  - apply Forall_map, Forall_forall. intros k Hk. apply in_seq in Hk. apply Hg. lia.
  - unfold fit. rewrite A. split; [split; [lia|exact C]|].
    assert (V : forall y, E y -> H0 p y = inner c (M2 + 1) (L1 y) g).
    { intros y Hy. rewrite D by exact Hy. rewrite LL. apply gsum_ext. intros k Hk. rewrite nth_map_seq by exact Hk. reflexivity. }
    split; [|exact V]. intros k Hk. rewrite V by (apply (xs2_elt I c nk OK); lia). fold (xs2 I c). rewrite <- (xs_prefix I c k) by lia. unfold inner. rewrite (gsum_one _ _ k Hk).
    + rewrite (lg_delta _ _ _ _ G1 k k) by lia. rewrite Nat.eqb_refl. apply (g_mul_1_l lam c HI). apply Hg. exact Hk.
    + intros j Hj Hne. rewrite (lg_delta _ _ _ _ G1 j k) by lia. destruct (Nat.eqb_spec k j); [congruence|]. apply (g_mul_0_l lam c HI).
Qed.

Section Rep.
Variables (e : nat) (x : fin) (h1 h3 : bytes).
Hypothesis He : e < T.
Hypothesis Lr : length (fi_rs x) = M1.
Hypothesis Er : Forall E (fi_rs x).
Hypothesis ER : E (fi_R x).
Hypothesis FP : P_is I c pre1 s t (tape e) (fi_rs x) (fi_P x).
Hypothesis FD : delta_is I c (tape e) (fi_P x) (fi_ds x).
Hypothesis Fr : fi_rs x = map (fun j => from_bytes (stream H (digest_size I =? 32) h1 ((e * M1 + j) * lam) lam)) (seq 0 M1).
Hypothesis Fm : fi_m x = N.to_nat (H (digest_size I =? 32) h3 e mod 256 mod N.of_nat n).
Hypothesis Fe : fi_entries x = map (fun i => node_seed H salt e (seed e) (sibling (Nat.iter i parent (first_leaf n + fi_m x)))) (seq 0 (depth n)).
Definition RV : rep_values :=
  mkRV (fi_rs x) (fi_R x) (fi_m x) (node_seed H salt e (seed e)) (com e) (tape e) (v_keys I (skd e) (tape e)) (st e) (ss e) (bc e)
    (fun p j => nth j (v_a (view e x p)) 0%N) (fun p j => nth j (v_b (view e x p)) 0%N) (fun p => v_c (view e x p)).
Lemma tapes_ok p : p < n -> tape_ok I (tape e p).
Proof. intros _. apply sg_tape_ok. Qed.
Lemma leaf_len_seed p : length (node_seed H salt e (seed e) (first_leaf n + p)) = seed_size I.
Proof. rewrite node_seed_length. apply (proj2 (seeds_ok H I key pt ct msg) e He). Qed.
Lemma S_points j k : j < M1 -> k < M2 + 1 -> E (if k <? M2 then gmul c (nth j (fi_rs x) 0%N) (bv I c s j k) else sr I (tape e) j).
Proof. intros Hj Hk. destruct (k <? M2); [apply (E_mul lam c HI)|apply (sr_elt I c nk OK); [exact tapes_ok|exact Hj]]. Qed.
Lemma T_points j k : j < M1 -> k < M2 + 1 -> E (if k <? M2 then bv I c t j k else tr I (tape e) j).
Proof. intros Hj Hk. destruct (k <? M2); [apply (bv_elt I c nk OK); apply (key_facts I c nk OK _ _ _ _ _ KO)|apply (tr_elt I c nk OK); [exact tapes_ok|exact Hj]]. Qed.
Definition Sp (j : nat) : list N := fit (fun k => if k <? M2 then gmul c (nth j (fi_rs x) 0%N) (bv I c s j k) else sr I (tape e) j).
Definition Tp (j : nat) : list N := fit (fun k => if k <? M2 then bv I c t j k else tr I (tape e) j).
Lemma Sp_value j y : j < M1 -> E y -> H0 (Sp j) y = ax I c pre1 s (nth j (fi_rs x) 0%N) (sr I (tape e) j) j y.
Proof.
  intros Hj Hy. unfold Sp. destruct (fit_ok _ (fun k => S_points j k Hj)) as (_ & _ & V). rewrite V by exact Hy.
  rewrite (inner_last I c nk OK pre1 (fi_rs x) Lr _ (fun k => gmul c (nth j (fi_rs x) 0%N) (bv I c s j k)) y (sr I (tape e) j) Hy).
  - unfold ax. f_equal. unfold Sx, inner. rewrite (gmul_gsum lam c HI).
    + apply gsum_ext. intros k Hk. rewrite (g_mul_swap lam c HI); [f_equal| | |].
      * unfold pad0. destruct (k <? M2); [reflexivity|symmetry; apply (g_mul_0_r lam c HI)].
      * apply (E_nth lam c HI). exact Er.
      * apply (lg_elt _ _ _ _ G1). exact Hy.
      * apply (pad0_elt I c nk OK). apply (key_facts I c nk OK _ _ _ _ _ KO).
    + apply (E_nth lam c HI). exact Er.
    + intros k Hk. apply (E_mul lam c HI).
  - apply (sr_elt I c nk OK); [exact tapes_ok|exact Hj].
  - intros k Hk. apply (E_mul lam c HI).
  - intros k Hk. reflexivity.
Qed.
Lemma Tp_value j y : j < M1 -> E y -> H0 (Tp j) y = bx I c pre1 t (tr I (tape e) j) j y.
Proof.
  intros Hj Hy. unfold Tp. destruct (fit_ok _ (fun k => T_points j k Hj)) as (_ & _ & V). rewrite V by exact Hy.
  rewrite (inner_last I c nk OK pre1 (fi_rs x) Lr _ (bv I c t j) y (tr I (tape e) j) Hy).
  - reflexivity.
  - apply (tr_elt I c nk OK); [exact tapes_ok|exact Hj].
  - intros k Hk. apply (bv_elt I c nk OK). apply (key_facts I c nk OK _ _ _ _ _ KO).
  - intros k Hk. reflexivity.
Qed.
Lemma rep_honest : honest_rep H I c salt h1 h3 (seed e) key pt s t e (proof e x) RV.
Proof.
  constructor.
  - exact Fr.
  - exact Fm.
  - reflexivity.
  - intros k Hk. apply node_seed_child. lia.
  - intros p Hp. unfold RV. cbn [x_com x_node]. unfold sg_com, l_com, commit_to_party_seed. unfold hash_squeeze, hash_final, hash_update_u16, hash_update, hash_init, com_input.
    cbn [h_v h_in h_off fst snd app]. rewrite <- !app_assoc. reflexivity.
  - intros p Hp. unfold RV. cbn [x_tape x_node]. unfold sg_tape, l_tape, generate_tape. unfold hash_squeeze, hash_final, hash_update_u16, hash_update, hash_init.
    cbn [h_v h_in h_off fst snd app]. unfold leaf_seed. rewrite leaf_len_seed. rewrite <- !app_assoc. f_equal. f_equal. lia.
  - unfold RV, sg_proof. cbn [p_reveal x_node x_hidden]. rewrite Fe. reflexivity.
  - reflexivity.
  - reflexivity.
  - reflexivity.
  - intros p Hp. reflexivity.
  - intros p Hp. reflexivity.
  - unfold RV. cbn [x_key x_inv x_out x_in].
    destruct (shares_ok I c nk OK pt (skd e) (std e) (tape e) (ko_pt _ _ _ _ _ _ _ KO) (kd_str I nk _ _ _ _ _ KO _ tapes_ok) (td_str I c nk OK _ _ _ _ _ KO _ tapes_ok) tapes_ok) as (_ & _ & A).
    change (map (st e) (seq 0 n)) with (map (v_ts I (std e) (tape e)) (seq 0 n)). rewrite A. f_equal. apply map_seq_ext. intros p Hp. unfold sg_bc, sg_s. apply surjective_pairing.
  - exists Sp, Tp, (fi_P x). unfold RV, sg_proof, sg_open, opened, v_a, v_b, v_c. cbn [x_coef x_point x_tape p_P_delta p_S_at_R p_T_at_R p_P_at_R fst snd].
    destruct FP as (P1 & P2 & P3). destruct FD as (D1 & D2).
    split; [|split; [|split; [|split; [|split; [|split; [|split]]]]]].
    + intros j Hj. destruct (fit_ok _ (fun k => S_points j k Hj)) as (A & B & _). split; [exact A|]. split.
      * intros k Hk. unfold Sp. rewrite B by lia. destruct (Nat.ltb_spec k M2); [reflexivity|lia].
      * unfold Sp. rewrite B by lia. rewrite Nat.ltb_irrefl. reflexivity.
    + intros j Hj. destruct (fit_ok _ (fun k => T_points j k Hj)) as (A & B & _). split; [exact A|]. split.
      * intros k Hk. unfold Tp. rewrite B by lia. destruct (Nat.ltb_spec k M2); [reflexivity|lia].
      * unfold Tp. rewrite B by lia. rewrite Nat.ltb_irrefl. reflexivity.
    + split; assumption.
    + intros y Hy. rewrite P3 by exact Hy. unfold gsum. f_equal. apply map_seq_ext. intros j Hj. rewrite Sp_value, Tp_value by (lia || exact Hy). reflexivity.
    + rewrite (list_map_nth' (fi_ds x) (M2 + 1) 0%N) at 1 by exact D1. apply map_seq_ext. intros k Hk. rewrite D2 by lia. reflexivity.
    + apply map_seq_ext. intros j Hj. symmetry. apply Sp_value; [lia|exact ER].
    + apply map_seq_ext. intros j Hj. symmetry. apply Tp_value; [lia|exact ER].
    + reflexivity.
  - intros p j Hp Hj. apply (through_S I c nk OK pre1 G1 (fi_rs x) (ss e p) (tape e p) j (fi_R x)); [|apply tapes_ok; exact Hp|exact Hj|exact ER|].
    + apply (outs_str I c nk OK _ _ _ _ _ KO); [exact tapes_ok|exact Hp].
    + unfold RV. cbn [x_S]. unfold sg_view, known, view_of, v_a. cbn [fst snd]. rewrite nth_map_seq by exact Hj. reflexivity.
  - intros p j Hp Hj. apply (through_T I c nk OK pre1 G1 (st e p) (tape e p) j (fi_R x)); [|apply tapes_ok; exact Hp|exact Hj|exact ER|].
    + apply v_ts_str; [apply (td_str I c nk OK _ _ _ _ _ KO); exact tapes_ok|apply tapes_ok; exact Hp].
    + unfold RV. cbn [x_T]. unfold sg_view, known, view_of, v_b. cbn [fst snd]. rewrite nth_map_seq by exact Hj. reflexivity.
  - intros p Hp. apply (through_P I c nk OK pre2 G2 (fi_rs x) (fi_ds x) p (tape e p) (fi_R x)); [exact Lr|exact Er| |apply tapes_ok; exact Hp|exact ER|reflexivity].
    apply (delta_elt I c nk OK pre1 s t (tape e) tapes_ok (fi_rs x) Lr (fi_P x)); assumption.
Qed.
End Rep.

Lemma seed_eq e : e < T -> stream H (digest_size I =? 32) (root_input I key (pt ++ ct) msg) (32 + e * seed_size I) (seed_size I) = seed e.
Proof.
  intros He. unfold sg_seed, generate_salt_and_seeds. unfold hash_squeeze, hash_final, hash_update_u16, hash_update, hash_init. cbn [h_v h_in h_off fst snd].
  rewrite squeeze_seeds_nth by exact He. unfold root_input. cbn [app Nat.add]. f_equal. rewrite <- !app_assoc. reflexivity.
Qed.
Lemma salt_eq : stream H (digest_size I =? 32) (root_input I key (pt ++ ct) msg) 0 32 = salt.
Proof.
  unfold sg_salt, generate_salt_and_seeds. unfold hash_squeeze, hash_final, hash_update_u16, hash_update, hash_init. cbn [h_v h_in h_off fst snd].
  unfold root_input. cbn [app Nat.add]. rewrite <- !app_assoc. reflexivity.
Qed.
Notation sh1 := (sg_h1 H I nk key pt ct t msg).
Notation sh2 := (sg_h2 H I nk key pt ct t msg).
Notation sh3 := (sg_h3 H I c nk pre1 pre2 key pt ct s t msg).
Lemma h1_of_run (D : nat -> fin) : sh1 = digest H I (h1_input I salt (pt ++ ct) msg (fun e => proof e (D e)) (fun e => RV e (D e))).
Proof. reflexivity. Qed.
Lemma h2_of_run (D : nat -> fin) : sh2 D = digest H I (h2_input I salt sh1 (fun e => proof e (D e))).
Proof. reflexivity. Qed.
Lemma h3_of_run (D : nat -> fin) : sh3 D = digest H I (h3_input I salt (sh2 D) (fun e => proof e (D e)) (fun e => RV e (D e))).
Proof. reflexivity. Qed.
Lemma rs_of (D : nat -> fin) h1 : phase_1_expand H I c h1 = Ok (map (fun r => fi_rs (D r)) (seq 0 T)) -> forall e, e < T ->
  fi_rs (D e) = map (fun j => from_bytes (stream H (digest_size I =? 32) h1 ((e * M1 + j) * lam) lam)) (seq 0 M1).
Proof.
  intros A e He. rewrite (phase_1_eq H I c _ HI) in A. injection A as A. apply (f_equal (fun l => nth e l [])) in A. rewrite !nth_map_seq in A by exact He. symmetry. exact A.
Qed.

(** what sign computes is what is described *)
Lemma run_prescribed fuel garb D sig : 0 < T -> run_ok H I c nk pre1 pre2 key pt ct s t msg fuel garb D sig ->
  prescribed H I c key pt ct s t msg sig (fun e => RV e (D e)).
Proof.
  intros HT [R1 R2 R3 R4 R5 R6].
  assert (Ef : 1 <= fuel). { destruct fuel; [exfalso|lia]. unfold phase_3_expand in R5. destruct T; [lia|]. discriminate R5. }
  assert (Epf : forall e, e < T -> pf_of sig e = proof e (D e)) by (intros e He; unfold pf_of; rewrite R1; cbn [s_proofs]; exact (nth_map_seq (fun r => proof r (D r)) T e _ He)).
  assert (E2 : h2_of H I sig = sh2 D).
  { rewrite h2_of_run. unfold h2_of. f_equal. unfold h2_input. rewrite R1 at 1 2. cbn [s_salt s_h1]. do 3 f_equal. f_equal. apply map_seq_ext. intros e He. rewrite Epf by lia. reflexivity. }
  constructor.
  - rewrite salt_eq, R1. reflexivity.
  - rewrite R1 at 1 2. cbn [s_salt s_h1]. rewrite (h1_of_run D) at 1. f_equal. unfold h1_input. do 4 f_equal. f_equal. apply map_seq_ext. intros e He. rewrite Epf by lia. reflexivity.
  - rewrite E2, R1 at 1. rewrite R1 at 1. cbn [s_salt s_h3]. rewrite (h3_of_run D) at 1. f_equal. unfold h3_input. do 3 f_equal. f_equal. apply map_seq_ext. intros e He. rewrite Epf by lia. reflexivity.
  - rewrite R1. cbn [s_proofs]. apply length_map_seq.
  - destruct (phase_2_filter H I c nk fuel _ _ OK R4) as (_ & M & EM). exists M. cbn [x_point RV]. unfold candidate. rewrite E2. exact EM.
  - intros e He. rewrite seed_eq by exact He. rewrite Epf by exact He. rewrite R1 at 1 2 3. cbn [s_salt s_h1 s_h3]. destruct (R2 e He) as [F1 F2 F3 F4 F5 F6 F7 F8 F9 F10].
    apply rep_honest; try assumption.
    + apply rs_of; assumption.
    + rewrite (party_challenges_pow2 H I k0 fuel garb _ HP Hk8 Ef) in R5. injection R5 as R5. apply (f_equal (fun l => nth e l 0)) in R5. rewrite !nth_map_seq in R5 by exact He. symmetry. exact R5.
    + destruct (R6 e He) as (t0 & A & B). apply (reveal_list n k0 (fi_m (D e)) (io_leaves _ _ _ OK) HP F7 H salt e (seed e) t0); try assumption.
      * rewrite (proj1 (proj2 (seeds_ok H I key pt ct msg) e He)). apply (io_seed _ _ _ OK).
      * apply (io_wide _ _ _ OK).
Qed.

(** with enough fuel, sign returns what is described *)
Lemma sign_of_prescribed sig X fuel garb : 0 < T -> prescribed H I c key pt ct s t msg sig X ->
  (exists M, M <= fuel /\ map (fun e => x_point (X e)) (seq 0 T) = filter (fun R => negb (forbidden I c R)) (map (candidate H I sig) (seq 0 M))) ->
  sign_body H I c fuel garb (key, pt ++ ct) msg = Ok sig.
Proof.
  intros HT PR (M & HM & EM). destruct (full_run H I c nk OK pre1 pre2 G1 G2 key pt ct0 ct s t KO Hct msg fuel garb) as [[A B]|(D & sig' & A & B)].
  - exfalso. assert (Ef : 1 <= fuel).
    { destruct fuel; [exfalso|lia]. assert (M = 0) by lia. subst M. apply (f_equal (@length N)) in EM. rewrite length_map_seq in EM. cbn in EM. lia. }
    destruct B as [(D & D1 & D2 & D3)|(h3 & B)].
    + set (D' := fun e => mkFin (fi_rs (D e)) (fi_P (D e)) (fi_ds (D e)) 0%N (N.to_nat (H (digest_size I =? 32)%nat [] e mod 256 mod N.of_nat n))
        (map (fun i => node_seed H salt e (seed e) (sibling (Nat.iter i parent (first_leaf n + N.to_nat (H (digest_size I =? 32)%nat [] e mod 256 mod N.of_nat n))))) (seq 0 (depth n)))).
      assert (Q : sh2 D = h2_of H I sig).
      { change (sh2 D) with (sh2 D'). rewrite (h2_of_run D').
        pose proof (same_h2 H I c nk k0 OK HP Hk8 pre1 G1 key pt ct s t msg sig X (fun e => RV e (D' e)) PR (fun e => proof e (D' e)) sh1 []) as Y.
        rewrite salt_eq in Y. apply Y; [|reflexivity].
        intros e He. rewrite seed_eq by exact He. destruct (D1 e He) as (F1 & F2 & F3 & F4). apply rep_honest; try assumption.
        - apply (E_0 lam c HI).
        - apply (rs_of D); assumption.
        - reflexivity.
        - reflexivity. }
      unfold phase_2_expand in D3. revert D3. change (hash_final (hash_update (hash_init (digest_size I)) (sh2 D))) with (mkCtx (digest_size I =? 32) (sh2 D) (Some 0)).
      apply (sample_Rs_enough H I c HI _ ltac:(apply (api_points _ _ HI); apply (points_ok I c nk OK); lia) _ _ fuel T M HM).
      rewrite Q. apply (f_equal (@length N)) in EM. rewrite length_map_seq in EM. rewrite EM at 1. unfold candidate, forbidden. apply Nat.le_refl.
    + rewrite (party_challenges_pow2 H I k0 fuel garb h3 HP Hk8 Ef) in B. discriminate B.
  - rewrite A. f_equal. symmetry.
    apply (same_sig H I c nk k0 OK HP Hk8 pre1 pre2 G1 G2 key pt ct s t msg sig sig' X (fun e => RV e (D e)) PR). exact (run_prescribed fuel garb D sig' HT B).
Qed.
End Exist.

(** *** the statements of PropHonest *)
Section Api.
Variables (H : oracle) (I : instance) (c : fctx) (key pt ct0 ct s t msg : bytes).
Hypothesis HB : regular I.
Hypothesis Hc : init_extension_field (lambda I) = Ok c.
Hypothesis Hk : str (key_size (i_aes I)) key.
Hypothesis Hp : str (pt_size I) pt.
Hypothesis Lct : length ct = pt_size I.
Hypothesis EA : aes_with_sbox_output (key_size (i_aes I)) key pt = Ok ((s, t), Some ct0).
Lemma api_signature fuel garb st st' sig : sign H fuel garb st I (key, pt ++ ct) msg = (st', Ok sig) -> exists X, prescribed H I c key pt ct s t msg sig X.
Proof.
  intros ES. pose proof (inst_with I c HB Hc) as OK. pose proof (key_ok_of I c _ OK key pt ct0 s t Hk Hp EA) as KO. destruct (regular_pow2 I HB) as (k0 & HP & Hk8).
  unfold sign in ES. rewrite (with_field_ok _ _ _ _ Hc) in ES. injection ES as _ ES. destruct (lagr1 I c _ OK) as [pre1 G1]. destruct (lagr2 I c _ OK) as [pre2 G2].
  destruct (full_run H I c _ OK pre1 pre2 G1 G2 key pt ct0 ct s t KO Lct msg fuel garb) as [[X _]|(D & sig' & X & RO)]; rewrite X in ES; [discriminate ES|]. injection ES as ->.
  eexists. exact (run_prescribed H I c _ k0 OK HP Hk8 pre1 pre2 G1 G2 key pt ct0 ct s t KO Lct msg fuel garb D sig (rg_rounds _ HB) RO).
Qed.
Lemma api_unique sig sig' X X' : prescribed H I c key pt ct s t msg sig X -> prescribed H I c key pt ct s t msg sig' X' -> sig = sig'.
Proof.
  pose proof (inst_with I c HB Hc) as OK. destruct (regular_pow2 I HB) as (k0 & HP & Hk8). destruct (lagr1 I c _ OK) as [pre1 G1]. destruct (lagr2 I c _ OK) as [pre2 G2].
  apply (same_sig H I c _ k0 OK HP Hk8 pre1 pre2 G1 G2).
Qed.
Lemma api_returned sig X : prescribed H I c key pt ct s t msg sig X ->
  exists fuel0, forall fuel garb st, fuel0 <= fuel -> snd (sign H fuel garb st I (key, pt ++ ct) msg) = Ok sig.
Proof.
  intros PR. pose proof (inst_with I c HB Hc) as OK. pose proof (key_ok_of I c _ OK key pt ct0 s t Hk Hp EA) as KO. destruct (regular_pow2 I HB) as (k0 & HP & Hk8).
  destruct (lagr1 I c _ OK) as [pre1 G1]. destruct (lagr2 I c _ OK) as [pre2 G2]. destruct (pr_points PR) as [M EM]. exists M. intros fuel garb st Hf.
  unfold sign. rewrite (with_field_ok _ _ _ _ Hc). cbn [snd].
  apply (sign_of_prescribed H I c _ k0 OK HP Hk8 pre1 pre2 G1 G2 key pt ct0 ct s t KO Lct msg sig X fuel garb (rg_rounds _ HB) PR). exists M. auto.
Qed.
End Api.
