(** The polynomial part of C55: sums of shares of S_j, T_j and P, and what the checked relation says about the S-box pairs. *)
From Coq Require Import Arith NArith List Bool Lia.
From Verif Require Import Prelude FieldModel FieldSpec FieldApi FieldLin PolyModel PolyProofs Instances HashModel TreeModel TreeSpec AesSpec AesModel AesBase AesApi AesShares BanquetModel ContainerModel ListSum BanquetHash BanquetPure BanquetPoly BanquetVerify Serialize Forge SigSpec VerifyTree VerifyFacts AcceptFacts AlterFacts ExtractSpec.
Import ListNotations.

Lemma points_prefix c j a b : j < a -> a <= b -> nth j (get_first_n_field_elements c b) 0%N = nth j (get_first_n_field_elements c a) 0%N.
Proof. intros Hj Hab. induction Hab; [reflexivity|]. rewrite <- IHHab. rewrite <- (Nat.add_1_r m). apply points_nth. lia. Qed.

Section Sum.
Variables (I : instance) (c : fctx) (nk k0 : nat).
Hypothesis OK : inst_ok I c nk.
Hypothesis HP : num_parties I = 2 ^ k0.
Hypothesis Hk8 : k0 <= 8.
Hypothesis MM : m1 I * m2 I = num_sboxes (i_aes I).
Let HI := io_field _ _ _ OK.
Notation E := (elt (lambda I)).
Notation ks := (key_size (i_aes I)).
Notation sb := (num_sboxes (i_aes I)).
Notation lam := (lambda I).
Notation n := (num_parties I).
Notation M1 := (m1 I).
Notation M2 := (m2 I).
Notation H0 := (horner gadd (gmul c)).

(** a polynomial through the sums of the values has the sum of the shares as its value *)
Lemma sum_through xs pre ys (a : nat -> N) R f : lagr lam c xs pre -> E R -> Forall E xs ->
  (forall p, p < n -> length (ys p) = length xs /\ Forall E (ys p) /\ through I c xs (ys p) R (a p)) ->
  length f = length xs -> Forall E f -> (forall k, k < length xs -> H0 f (nth k xs 0%N) = gsum n (fun p => nth k (ys p) 0%N)) ->
  H0 f R = gsum n a.
Proof.
  intros G HR Hx HY Lf Ef Ev. rewrite <- (lg_value _ _ _ _ G f R Lf Ef HR).
  transitivity (gsum n (fun p => gsum (length xs) (fun k => gmul c (lag c pre k R) (nth k (ys p) 0%N)))).
  - rewrite gsum_swap. apply gsum_ext. intros k Hk. rewrite Ev by exact Hk. apply (gmul_gsum lam c HI); [apply (lg_elt _ _ _ _ G); exact HR|].
    intros p Hp. apply (E_nth lam c HI). apply (HY p Hp).
  - apply gsum_ext. intros p Hp. destruct (HY p Hp) as (L & F & Th). symmetry. apply (through_iff I c HI xs pre (ys p) R (a p) G HR Hx L F). exact Th.
Qed.
Lemma poly_exists xs pre (g : nat -> N) : lagr lam c xs pre -> Forall E xs -> (forall k, k < length xs -> E (g k)) ->
  exists f, length f = length xs /\ Forall E f /\ forall k, k < length xs -> H0 f (nth k xs 0%N) = g k.
Proof.
  intros G Hx Hg. assert (F : Forall E (map g (seq 0 (length xs)))) by (apply Forall_map, Forall_forall; intros k Hk; apply in_seq in Hk; apply Hg; lia).
  assert (X : through I c xs (map g (seq 0 (length xs))) 0%N (gsum (length xs) (fun k => gmul c (lag c pre k 0%N) (nth k (map g (seq 0 (length xs))) 0%N)))).
  { apply (through_iff I c HI xs pre _ _ _ G (E_0 lam c HI) Hx); [apply length_map_seq|exact F|reflexivity]. }
  destruct X as (f & L & Ef & Ev & _). exists f. split; [exact L|]. split; [exact Ef|]. intros k Hk. rewrite <- (nth_map_seq g (length xs) k 0%N Hk), <- Ev.
  rewrite (nth_indep (map (H0 f) xs) 0%N (H0 f 0%N)) by (rewrite map_length; exact Hk). symmetry. apply map_nth.
Qed.

(** shares *)
Variables (rs : list N) (R : N) (ins invs tape : nat -> bytes) (ds : list N) (aS aT : nat -> nat -> N) (aP : nat -> N).
Hypothesis Lr : length rs = M1.
Hypothesis Er : Forall E rs.
Hypothesis HR : E R.
Hypothesis Hd : Forall E ds.
Hypothesis Hin : forall p, p < n -> str sb (ins p).
Hypothesis Hinv : forall p, p < n -> str sb (invs p).
Hypothesis HT : forall p, p < n -> tape_ok I (tape p).
Hypothesis TS : forall p j, p < n -> j < M1 -> through I c (xs1 I c) (s_pts I c rs (ins p) (tape p) j) R (aS p j).
Hypothesis TT : forall p j, p < n -> j < M1 -> through I c (xs1 I c) (t_pts I c (invs p) (tape p) j) R (aT p j).
Hypothesis TP : forall p, p < n -> through I c (xs2 I c) (p_pts I rs ds p (tape p)) R (aP p).
Notation s := (bsum sb n ins).
Notation t := (bsum sb n invs).
Notation tp := (fun off => gsum n (fun p => tape_elem I (tape p) off)).
Notation dl := (fun k => nth k ds 0%N).
Notation pt k := (nth k (xs2 I c) 0%N).

Lemma n2' : 2 <= n. Proof. apply (n_pos I c nk OK). Qed.
Lemma pt1 k : k < M2 + 1 -> nth k (xs1 I c) 0%N = pt k.
Proof. intros Hk. symmetry. apply points_prefix; lia. Qed.
Lemma idx j k : j < M1 -> k < M2 -> j + M1 * k < sb.
Proof. apply (idx_ok I c nk OK). Qed.
Lemma s_byte i : (nth i s 0 < 256)%N. Proof. apply is_bytes_nth. apply (bsum_str sb n ins Hin). Qed.
Lemma t_byte i : (nth i t 0 < 256)%N. Proof. apply is_bytes_nth. apply (bsum_str sb n invs Hinv). Qed.
Lemma lift_sum (f : nat -> bytes) i : (forall p, p < n -> str sb (f p)) -> i < sb -> gsum n (fun p => lift c (nth i (f p) 0%N)) = lift c (nth i (bsum sb n f) 0%N).
Proof.
  intros Hf Hi. rewrite nth_bsum by (auto; intros p Hp; apply (Hf p Hp)). symmetry. apply (lift_gsum lam c HI). intros p Hp. apply is_bytes_nth. apply (Hf p Hp).
Qed.
Lemma E_lift_nth (b : bytes) i : (nth i b 0 < 256)%N -> E (lift c (nth i b 0%N)). Proof. apply (lift_elt lam c HI). Qed.
Lemma tape_E p off : p < n -> off + lam <= tape_size I -> E (tape_elem I (tape p) off).
Proof.
  intros Hp Ho. destruct (HT p Hp) as [L B]. apply (api_bytes _ _ HI); [apply is_bytes_slice; exact B|]. apply slice_length. lia.
Qed.

Lemma S_sum j f : j < M1 -> S_poly I c rs s tp j f -> H0 f R = gsum n (fun p => aS p j).
Proof.
  intros Hj (L & Ef & V1 & V2). destruct (lagr1 I c nk OK) as [pre G]. destruct (xs1_ok I c nk OK) as (_ & LX & _).
  apply (sum_through (xs1 I c) pre (fun p => s_pts I c rs (ins p) (tape p) j) (fun p => aS p j) R f G HR (xs1E I c nk OK)).
  - intros p Hp. rewrite (s_pts_eq I c), length_map_seq. split; [symmetry; exact LX|]. split.
    + apply Forall_map, Forall_forall. intros k _. apply (s_pt_elt I c nk OK); auto.
    + rewrite <- (s_pts_eq I c). apply TS; assumption.
  - lia.
  - exact Ef.
  - intros k Hk. rewrite LX in Hk. rewrite pt1 by exact Hk. destruct (Nat.eq_dec k M2) as [->|Ne].
    + unfold xs2. rewrite V2. apply gsum_ext. intros p Hp. unfold s_pts. rewrite app_nth2, length_map_seq, Nat.sub_diag by (rewrite length_map_seq; lia). reflexivity.
    + unfold xs2. rewrite V1 by lia. rewrite <- (lift_sum ins) by (auto; apply idx; lia). rewrite (gmul_gsum lam c HI).
      * apply gsum_ext. intros p Hp. unfold s_pts. rewrite app_nth1 by (rewrite length_map_seq; lia). rewrite nth_map_seq by lia. reflexivity.
      * apply (E_nth lam c HI). exact Er.
      * intros p Hp. apply E_lift_nth. apply is_bytes_nth. apply (Hin p Hp).
Qed.
Lemma T_sum j f : j < M1 -> T_poly I c t tp j f -> H0 f R = gsum n (fun p => aT p j).
Proof.
  intros Hj (L & Ef & V1 & V2). destruct (lagr1 I c nk OK) as [pre G]. destruct (xs1_ok I c nk OK) as (_ & LX & _).
  apply (sum_through (xs1 I c) pre (fun p => t_pts I c (invs p) (tape p) j) (fun p => aT p j) R f G HR (xs1E I c nk OK)).
  - intros p Hp. rewrite (t_pts_eq I c), length_map_seq. split; [symmetry; exact LX|]. split.
    + apply Forall_map, Forall_forall. intros k _. apply (t_pt_elt I c nk OK); auto.
    + rewrite <- (t_pts_eq I c). apply TT; assumption.
  - lia.
  - exact Ef.
  - intros k Hk. rewrite LX in Hk. rewrite pt1 by exact Hk. destruct (Nat.eq_dec k M2) as [->|Ne].
    + unfold xs2. rewrite V2. apply gsum_ext. intros p Hp. unfold t_pts. rewrite app_nth2, length_map_seq, Nat.sub_diag by (rewrite length_map_seq; lia). reflexivity.
    + unfold xs2. rewrite V1 by lia. rewrite <- (lift_sum invs) by (auto; apply idx; lia).
      apply gsum_ext. intros p Hp. unfold t_pts. rewrite app_nth1 by (rewrite length_map_seq; lia). rewrite nth_map_seq by lia. reflexivity.
Qed.
Lemma P_sum' f : P_poly I c rs tp dl f -> H0 f R = gsum n aP.
Proof.
  intros (L & Ef & V1 & V2). destruct (lagr2 I c nk OK) as [pre G]. destruct (xs2_ok I c nk OK) as (_ & LX & _). pose proof n2' as N2.
  apply (sum_through (xs2 I c) pre (fun p => p_pts I rs ds p (tape p)) aP R f G HR (xs2E I c nk OK)).
  - intros p Hp. rewrite (p_pts_eq I) by exact Lr. rewrite length_map_seq. split; [symmetry; exact LX|]. split.
    + apply Forall_map, Forall_forall. intros k Hk. apply in_seq in Hk. apply (P_adj_elt I c nk OK); auto. lia.
    + rewrite <- (p_pts_eq I) by exact Lr. apply TP; assumption.
  - lia.
  - exact Ef.
  - intros k Hk. rewrite LX in Hk. destruct (le_lt_dec M2 k) as [A|A].
    + replace k with (M2 + (k - M2)) at 1 by lia. unfold xs2. rewrite V2 by lia.
      rewrite (gsum_others n 0 (fun p => nth k (p_pts I rs ds p (tape p)) 0%N)) by lia. cbv beta.
      rewrite (gsum_others n 0 (fun p => tape_elem I (tape p) _)) by lia. unfold p_pts at 1. cbv zeta. change (0 =? 0) with true. cbv iota.
      rewrite app_nth2, repeat_length, nth_map_seq by (rewrite ?repeat_length; lia). unfold gadd. rewrite !N.lxor_assoc. f_equal. rewrite N.lxor_comm. f_equal.
      apply gothers_ext. intros p Hp Np. unfold p_pts. cbv zeta. destruct (Nat.eqb_spec p 0); [congruence|].
      rewrite app_nth2, repeat_length, nth_map_seq by (rewrite ?repeat_length; lia). reflexivity.
    + unfold xs2. rewrite V1 by exact A. symmetry.
      assert (Z : forall p, nth k (p_pts I rs ds p (tape p)) 0%N = if p =? 0 then xsum rs else 0%N).
      { intros p. unfold p_pts. rewrite app_nth1 by (rewrite repeat_length; exact A). set (v := if p =? 0 then xsum rs else 0%N). clearbody v. clear -A.
        revert k A. induction M2 as [|m IH]; intros k A; [lia|]. destruct k; [reflexivity|]. cbn [repeat nth]. apply IH. lia. }
      rewrite (gsum_one n _ 0); [rewrite Z; reflexivity|lia|]. intros p _ Np. rewrite Z. destruct (Nat.eqb_spec p 0); [congruence|reflexivity].
Qed.

(** the products of S_j and T_j, and Q *)
Lemma sum_poly (S T : nat -> list N) P d : (forall j, j < d -> length (S j) = M2 + 1 /\ Forall E (S j)) -> (forall j, j < d -> length (T j) = M2 + 1 /\ Forall E (T j)) ->
  length P = 2 * M2 + 1 -> Forall E P ->
  exists Q, length Q = 2 * M2 + 1 /\ Forall E Q /\ forall y, E y -> H0 Q y = gadd (gsum d (fun j => gmul c (H0 (S j) y) (H0 (T j) y))) (H0 P y).
Proof.
  intros HS' HT' LP EP. induction d as [|d IH].
  - exists P. split; [exact LP|]. split; [exact EP|]. intros y Hy. rewrite gsum_0. symmetry. apply N.lxor_0_l.
  - destruct IH as (Q & LQ & EQ & VQ); [intros; apply HS'; lia|intros; apply HT'; lia|]. destruct (HS' d ltac:(lia)) as [L1 E1]. destruct (HT' d ltac:(lia)) as [L2 E2].
    destruct (api_vmul lam c HI (S d) (T d) E1 E2 ltac:(lia) ltac:(lia)) as (W & _ & LW & EW & VW).
    destruct (g_vadd lam c HI Q W ltac:(lia) EQ EW) as (Z & _ & LZ & EZ & VZ). exists Z. split; [lia|]. split; [exact EZ|]. intros y Hy. rewrite VZ, VQ, VW by exact Hy.
    rewrite gsum_S. unfold gadd. rewrite !N.lxor_assoc. f_equal. apply N.lxor_comm.
Qed.
Lemma Q_at S T P Q k : (forall j, j < M1 -> S_poly I c rs s tp j (S j)) -> (forall j, j < M1 -> T_poly I c t tp j (T j)) -> P_poly I c rs tp dl P ->
  (forall y, E y -> H0 Q y = gadd (gsum M1 (fun j => gmul c (H0 (S j) y) (H0 (T j) y))) (H0 P y)) -> k < M2 ->
  H0 Q (pt k) = error I c rs s t k.
Proof.
  intros PS PT PP VQ Hk. destruct (xs2_ok I c nk OK) as (_ & LX & FX). assert (Ek : E (pt k)) by (apply (E_nth lam c HI); apply (xs2E I c nk OK)).
  rewrite VQ by exact Ek. destruct PP as (_ & _ & VP & _). unfold xs2 at 3. rewrite VP by exact Hk. unfold error. fold (gsum M1 (fun j => gmul c (nth j rs 0%N) (gadd (gmul c (lift c (nth (j + M1 * k) s 0%N)) (lift c (nth (j + M1 * k) t 0%N))) 1%N))).
  rewrite (list_map_nth' rs M1 0%N Lr) at 1. fold (gsum M1 (fun j => nth j rs 0%N)). unfold gadd at 1. rewrite <- gsum_add. apply gsum_ext. intros j Hj.
  destruct (PS j Hj) as (_ & _ & VS & _). destruct (PT j Hj) as (_ & _ & VT & _). unfold xs2. rewrite VS, VT by exact Hk.
  assert (E1 : E (nth j rs 0%N)) by (apply (E_nth lam c HI); exact Er). assert (E2 : E (lift c (nth (j + M1 * k) s 0%N))) by (apply E_lift_nth, s_byte). assert (E3 : E (lift c (nth (j + M1 * k) t 0%N))) by (apply E_lift_nth, t_byte).
  rewrite (g_distr_r lam c HI) by (exact E1 || apply (E_mul lam c HI) || apply (E_1 lam c HI)). rewrite (g_mul_1_r lam c HI) by exact E1. rewrite (g_assoc lam c HI) by assumption. reflexivity.
Qed.
Lemma polys_exist : exists S T P, (forall j, j < M1 -> S_poly I c rs s tp j (S j)) /\ (forall j, j < M1 -> T_poly I c t tp j (T j)) /\ P_poly I c rs tp dl P.
Proof.
  destruct (lagr1 I c nk OK) as [pre1 G1]. destruct (lagr2 I c nk OK) as [pre2 G2]. destruct (xs1_ok I c nk OK) as (_ & L1 & _). destruct (xs2_ok I c nk OK) as (_ & L2 & _). pose proof n2' as N2.
  assert (CH : forall (Pr : nat -> list N -> Prop) d, (forall j, j < d -> exists f, Pr j f) -> exists F, forall j, j < d -> Pr j (F j)).
  { intros Pr d. induction d as [|d IH]; intros Hx; [exists (fun _ => []); lia|]. destruct IH as [F HF]; [intros; apply Hx; lia|]. destruct (Hx d ltac:(lia)) as [f Hf].
    exists (fun j => if j =? d then f else F j). intros j Hj. destruct (Nat.eqb_spec j d) as [->|Ne]; [exact Hf|apply HF; lia]. }
  assert (TE : forall off, off + lam <= tape_size I -> E (tp off)) by (intros off Ho; apply (E_gsum lam c HI); intros p Hp; apply tape_E; assumption).
  destruct (CH (S_poly I c rs s tp) M1) as [S HS'].
  { intros j Hj. destruct (poly_exists (xs1 I c) pre1 (fun k => if k <? M2 then gmul c (nth j rs 0%N) (lift c (nth (j + M1 * k) s 0%N)) else tp (ks + sb + j * 2 * lam)) G1 (xs1E I c nk OK)) as (f & A & B & V).
    - intros k _. destruct (k <? M2); [apply (E_mul lam c HI)|]. apply TE. unfold tape_size. nia.
    - exists f. split; [lia|]. split; [exact B|]. split.
      + intros k Hk. specialize (V k ltac:(lia)). rewrite pt1 in V by lia. unfold xs2 in V. rewrite V. destruct (Nat.ltb_spec k M2); [reflexivity|lia].
      + specialize (V M2 ltac:(lia)). rewrite pt1 in V by lia. unfold xs2 in V. rewrite V, Nat.ltb_irrefl. reflexivity. }
  destruct (CH (T_poly I c t tp) M1) as [T HT'].
  { intros j Hj. destruct (poly_exists (xs1 I c) pre1 (fun k => if k <? M2 then lift c (nth (j + M1 * k) t 0%N) else tp (ks + sb + j * 2 * lam + lam)) G1 (xs1E I c nk OK)) as (f & A & B & V).
    - intros k _. destruct (k <? M2); [apply E_lift_nth, t_byte|]. apply TE. unfold tape_size. nia.
    - exists f. split; [lia|]. split; [exact B|]. split.
      + intros k Hk. specialize (V k ltac:(lia)). rewrite pt1 in V by lia. unfold xs2 in V. rewrite V. destruct (Nat.ltb_spec k M2); [reflexivity|lia].
      + specialize (V M2 ltac:(lia)). rewrite pt1 in V by lia. unfold xs2 in V. rewrite V, Nat.ltb_irrefl. reflexivity. }
  destruct (poly_exists (xs2 I c) pre2 (fun k => if k <? M2 then xsum rs else gadd (tp (ks + sb + M1 * 2 * lam + (k - M2) * lam)) (dl (k - M2))) G2 (xs2E I c nk OK)) as (P & A & B & V).
  { intros k Hk. destruct (Nat.ltb_spec k M2).
    - rewrite (list_map_nth' rs M1 0%N Lr). apply (E_gsum lam c HI). intros; apply (E_nth lam c HI); exact Er.
    - apply (E_add lam c HI); [|apply (E_nth lam c HI); exact Hd]. apply TE. unfold tape_size. rewrite L2 in Hk. nia. }
  exists S, T, P. split; [exact HS'|]. split; [exact HT'|]. split; [lia|]. split; [exact B|]. split.
  - intros k Hk. specialize (V k ltac:(lia)). unfold xs2 in V. rewrite V. destruct (Nat.ltb_spec k M2); [reflexivity|lia].
  - intros k Hk. specialize (V (M2 + k) ltac:(lia)). unfold xs2 in V. rewrite V. destruct (Nat.ltb_spec (M2 + k) M2); [lia|]. replace (M2 + k - M2) with k by lia. reflexivity.
Qed.
Hypothesis REL : gsum M1 (fun j => gmul c (gsum n (fun p => aS p j)) (gsum n (fun p => aT p j))) = gsum n aP.
Lemma pairs_checked : (forall i, i < sb -> right_pair s t i) \/ bad_coefs I c rs s t \/ bad_point I c rs s t tp dl R.
Proof.
  destruct polys_exist as (S & T & P & PS & PT & PP).
  destruct (sum_poly S T P M1) as (Q & LQ & EQ & VQ); [intros j Hj; destruct (PS j Hj) as (A & B & _); auto|intros j Hj; destruct (PT j Hj) as (A & B & _); auto|apply PP|apply PP|].
  destruct (all_or_one (fun i => N.eqb (fmul (nth i s 0%N) (nth i t 0%N)) 1) sb) as [A|(i & Hi & A)].
  { left. intros i Hi. apply N.eqb_eq. apply A. exact Hi. }
  apply N.eqb_neq in A. right. destruct (all_or_one (fun k => N.eqb (error I c rs s t k) 0) M2) as [B|(k & Hk & B)].
  - left. split; [exists i; split; [exact Hi|exact A]|]. intros k Hk. apply N.eqb_eq, B, Hk.
  - right. apply N.eqb_neq in B. exists Q. split; [|split].
    + split; [exact LQ|]. split; [exact EQ|]. exists S, T, P. auto.
    + exists k. split; [exact Hk|]. fold (xs2 I c). rewrite (Q_at S T P Q k PS PT PP VQ Hk). exact B.
    + rewrite VQ by exact HR. rewrite (P_sum' P PP), <- REL.
      rewrite (gsum_ext M1 (fun j => gmul c (H0 (S j) R) (H0 (T j) R)) (fun j => gmul c (gsum n (fun p => aS p j)) (gsum n (fun p => aT p j)))).
      * apply N.lxor_nilpotent.
      * intros j Hj. rewrite (S_sum j _ Hj (PS j Hj)), (T_sum j _ Hj (PT j Hj)). reflexivity.
Qed.
End Sum.
