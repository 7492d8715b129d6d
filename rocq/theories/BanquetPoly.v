(** The polynomials of one repetition of signing: what the parties' shares add up to, and the final relation. *)
From Coq Require Import Arith NArith List Bool Lia.
From Verif Require Import Prelude FieldModel FieldSpec FieldApi FieldLin PolyModel Instances HashModel TreeModel TreeSpec TreeApi TreeRev AesSpec AesModel AesBase AesApi AesShares BanquetModel ContainerModel ListSum BanquetHash BanquetPure BanquetVerify BanquetSign.
Import ListNotations.

Section Poly.
Variables (H : oracle) (I : instance) (c : fctx) (nk : nat).
Hypothesis OK : inst_any I c nk.
Let HI := io_field _ _ _ OK.
Notation E := (elt (lambda I)).
Notation ks := (key_size (i_aes I)).
Notation sb := (num_sboxes (i_aes I)).
Notation lam := (lambda I).
Notation n := (num_parties I).
Notation M1 := (m1 I).
Notation M2 := (m2 I).
Notation H0 := (horner gadd (gmul c)).
Variables (pre1 pre2 : list (list N)).
Hypothesis G1 : lagr lam c (xs1 I c) pre1.
Hypothesis G2 : lagr lam c (xs2 I c) pre2.
Local Notation L1 R := (fun k => lag c pre1 k R).
Local Notation L2 R := (fun k => lag c pre2 k R).

Lemma len1 : length (xs1 I c) = M2 + 1. Proof. apply (xs1_ok I c nk OK). Qed.
Lemma len2 : length (xs2 I c) = 2 * M2 + 1. Proof. apply (xs2_ok I c nk OK). Qed.

(** *** interpolation of the S-box values *)
Variables (s t : bytes).
Hypothesis Hs : str sb s.
Hypothesis Ht : str sb t.
Hypothesis Hst : forall i, i < sb -> fmul (nth i s 0%N) (nth i t 0%N) = 1%N.

Definition bv (v : bytes) (j k : nat) : N := lift c (nth (j + M1 * k) v 0%N).
Definition pad0 (f : nat -> N) (k : nat) : N := if k <? M2 then f k else 0%N.
Definition Sx (v : bytes) (j : nat) (R : N) : N := inner c (M2 + 1) (L1 R) (pad0 (bv v j)).
Lemma bv_elt v j k : str sb v -> E (bv v j k).
Proof. intros [_ B]. apply (lift_elt lam c HI). apply is_bytes_nth. exact B. Qed.
Lemma pad0_elt v j k : str sb v -> E (pad0 (bv v j) k).
Proof. intros B. unfold pad0. destruct (k <? M2); [apply bv_elt; exact B|apply (E_0 lam c HI)]. Qed.
Lemma nth_pad0 f k : k < M2 + 1 -> nth k (map f (seq 0 M2) ++ [0%N]) 0%N = pad0 f k.
Proof.
  intros Hk. unfold pad0. destruct (Nat.ltb_spec k M2).
  - rewrite app_nth1 by (rewrite length_map_seq; lia). apply nth_map_seq. lia.
  - rewrite app_nth2 by (rewrite length_map_seq; lia). rewrite length_map_seq. replace (k - M2) with 0 by lia. reflexivity.
Qed.
Lemma sbox_poly v j : str sb v -> j < M1 ->
  mapM (fun k => do x <- get v (j + M1 * k); Ok (lift c x)) (seq 0 M2) = Ok (map (bv v j) (seq 0 M2)) /\
  exists p, interpolate_with_precomputation (gops c) pre1 (map (bv v j) (seq 0 M2) ++ [0%N]) = Ok p /\
    length p = M2 + 1 /\ Forall E p /\ forall R, E R -> H0 p R = Sx v j R.
Proof.
  intros Hv Hj. split.
  - apply mapM_seq. intros k Hk. rewrite (get_ok v _ 0%N); [reflexivity|]. rewrite (proj1 Hv). apply (idx_ok I c nk OK); assumption.
  - destruct (lg_interp _ _ _ _ G1 (map (bv v j) (seq 0 M2) ++ [0%N])) as (p & A & B & C & D).
    + rewrite app_length, length_map_seq, len1. reflexivity.
    + apply Forall_app. split; [|constructor; [apply (E_0 lam c HI)|constructor]].
      apply Forall_map, Forall_forall. intros k _. apply bv_elt. exact Hv.
    + exists p. rewrite len1 in *. split; [exact A|]. split; [exact B|]. split; [exact C|]. intros R HR. rewrite D by exact HR.
      unfold Sx, inner. apply gsum_ext. intros k Hk. rewrite nth_pad0 by exact Hk. reflexivity.
Qed.
Definition last1 : list N := nth M2 pre1 [].
Lemma last1_ok : get pre1 M2 = Ok last1 /\ length last1 = M2 + 1 /\ Forall E last1.
Proof.
  split; [apply (@get_ok (list N)); rewrite (lg_len _ _ _ _ G1), len1; lia|].
  rewrite <- len1. apply (lg_row _ _ _ _ G1). rewrite len1. lia.
Qed.
Lemma Sx_elt v j R : E (Sx v j R). Proof. apply (inner_elt I c nk OK). Qed.
Lemma L1_elt R k : E R -> E (lag c pre1 k R). Proof. intros. apply (lg_elt _ _ _ _ G1). assumption. Qed.
Lemma L2_elt R k : E R -> E (lag c pre2 k R). Proof. intros. apply (lg_elt _ _ _ _ G2). assumption. Qed.
Lemma sq_ok : exists sq, vmul (gops c) last1 last1 = Ok sq /\ length sq = 2 * M2 + 1 /\ Forall E sq /\
  forall R, E R -> H0 sq R = gmul c (lag c pre1 M2 R) (lag c pre1 M2 R).
Proof.
  destruct last1_ok as (_ & L & F). destruct (api_vmul lam c HI last1 last1 F F) as (sq & A & B & C & D); [lia..|].
  exists sq. split; [exact A|]. split; [lia|]. split; [exact C|]. intros R HR. apply D. exact HR.
Qed.
Definition prod_ok (j : nat) (pr : list N * list N * list N) : Prop :=
  let '(st, sl, tl) := pr in
  (length st = 2 * M2 + 1 /\ Forall E st /\ forall R, E R -> H0 st R = gmul c (Sx s j R) (Sx t j R)) /\
  (length sl = 2 * M2 + 1 /\ Forall E sl /\ forall R, E R -> H0 sl R = gmul c (Sx s j R) (lag c pre1 M2 R)) /\
  (length tl = 2 * M2 + 1 /\ Forall E tl /\ forall R, E R -> H0 tl R = gmul c (Sx t j R) (lag c pre1 M2 R)).
Lemma sbox_products_ok j : j < M1 -> exists pr, sbox_products I c pre1 last1 s t j = Ok pr /\ prod_ok j pr.
Proof.
  intros Hj. destruct (sbox_poly s j Hs Hj) as (A1 & p & A2 & A3 & A4 & A5). destruct (sbox_poly t j Ht Hj) as (B1 & q & B2 & B3 & B4 & B5).
  destruct last1_ok as (_ & L & F).
  destruct (api_vmul lam c HI p q A4 B4) as (st & C1 & C2 & C3 & C4); [lia..|].
  destruct (api_vmul lam c HI p last1 A4 F) as (sl & D1 & D2 & D3 & D4); [lia..|].
  destruct (api_vmul lam c HI q last1 B4 F) as (tl & F1 & F2 & F3 & F4); [lia..|].
  exists (st, sl, tl). split.
  - unfold sbox_products. rewrite A1. cbn [bind]. rewrite B1. cbn [bind]. rewrite A2. cbn [bind]. rewrite B2. cbn [bind].
    rewrite C1. cbn [bind]. rewrite D1. cbn [bind]. rewrite F1. reflexivity.
  - repeat split; try lia; try assumption; intros R HR.
    + rewrite C4, A5, B5 by exact HR. reflexivity.
    + rewrite D4, A5 by exact HR. reflexivity.
    + rewrite F4, B5 by exact HR. reflexivity.
Qed.
Lemma prods_ok : exists prods, mapM (sbox_products I c pre1 last1 s t) (seq 0 M1) = Ok prods /\ length prods = M1 /\
  forall j, j < M1 -> prod_ok j (nth j prods ([], [], [])).
Proof.
  destruct (mapM_exists (sbox_products I c pre1 last1 s t) prod_ok M1 ([], [], []) sbox_products_ok) as (l & A & B & C).
  exists l. split; [exact A|]. split; [exact B|]. intros j Hj. apply C. exact Hj.
Qed.

(** *** the product polynomial *)
Definition ax (r sr : N) (j : nat) (R : N) : N := gadd (gmul c r (Sx s j R)) (gmul c sr (lag c pre1 M2 R)).
Definition bx (tr : N) (j : nat) (R : N) : N := gadd (Sx t j R) (gmul c tr (lag c pre1 M2 R)).
Lemma P_poly_ok rs prods sq s_rnd t_rnd : length rs = M1 -> Forall E rs -> length prods = M1 ->
  (forall j, j < M1 -> prod_ok j (nth j prods ([], [], []))) -> length sq = 2 * M2 + 1 -> Forall E sq ->
  (forall R, E R -> H0 sq R = gmul c (lag c pre1 M2 R) (lag c pre1 M2 R)) ->
  length s_rnd = M1 -> Forall E s_rnd -> length t_rnd = M1 -> Forall E t_rnd ->
  exists P, P_poly I c rs prods sq s_rnd t_rnd = Ok P /\ length P = 2 * M2 + 1 /\ Forall E P /\
    forall R, E R -> H0 P R = gsum M1 (fun j => gmul c (ax (nth j rs 0%N) (nth j s_rnd 0%N) j R) (bx (nth j t_rnd 0%N) j R)).
Proof.
  intros Lr Fr Lp Hp Lq Fq Hq Ls Fs Lt Ft. unfold P_poly.
  assert (G : forall m, m <= M1 -> exists P, foldM (fun P j =>
    do r <- get rs j; do pr <- get prods j; do sr <- get s_rnd j; do tr <- get t_rnd j;
    do x <- vadd (gops c) (fst (fst pr)) (vscale (gops c) (snd (fst pr)) tr);
    do x <- vadd (gops c) (vscale (gops c) x r) (vscale (gops c) (snd pr) sr);
    do x <- vadd (gops c) x (vscale (gops c) (vscale (gops c) sq sr) tr);
    vadd (gops c) P x) (seq 0 m) (repeat 0%N (2 * M2 + 1)) = Ok P /\ length P = 2 * M2 + 1 /\ Forall E P /\
    forall R, E R -> H0 P R = gsum m (fun j => gmul c (ax (nth j rs 0%N) (nth j s_rnd 0%N) j R) (bx (nth j t_rnd 0%N) j R))).
  { induction m; intros Hm.
    - exists (repeat 0%N (2 * M2 + 1)). split; [reflexivity|]. split; [apply repeat_length|]. split.
      + apply Forall_forall. intros x Hx. apply repeat_spec in Hx. subst x. apply (E_0 lam c HI).
      + intros R HR. apply (g_repeat0 lam c HI). exact HR.
    - destruct (IHm ltac:(lia)) as (P & E1 & E2 & E3 & E4). rewrite seq_S, PolyProofs.foldM_app, E1. cbn [Nat.add bind foldM].
      rewrite (get_ok rs m 0%N) by lia. cbn [bind]. rewrite (get_ok prods m ([], [], [])) by lia. cbn [bind].
      rewrite (get_ok s_rnd m 0%N) by lia. cbn [bind]. rewrite (get_ok t_rnd m 0%N) by lia. cbn [bind].
      pose proof (Hp m ltac:(lia)) as Pm. destruct (nth m prods ([], [], [])) as [[st sl] tl]. cbn [fst snd].
      destruct Pm as ((A1 & A2 & A3) & (B1 & B2 & B3) & (C1 & C2 & C3)).
      set (r := nth m rs 0%N). set (sr := nth m s_rnd 0%N). set (tr := nth m t_rnd 0%N).
      assert (Er : E r) by (apply (E_nth lam c HI); exact Fr). assert (Es : E sr) by (apply (E_nth lam c HI); exact Fs).
      assert (Et : E tr) by (apply (E_nth lam c HI); exact Ft).
      destruct (g_vscale lam c HI sl tr B2 Et) as (X1 & X2 & X3).
      destruct (g_vadd lam c HI st (vscale (gops c) sl tr) ltac:(lia) A2 X2) as (x & Y1 & Y2 & Y3 & Y4). rewrite Y1. cbn [bind].
      destruct (g_vscale lam c HI x r Y3 Er) as (Z1 & Z2 & Z3). destruct (g_vscale lam c HI tl sr C2 Es) as (W1 & W2 & W3).
      destruct (g_vadd lam c HI _ _ (eq_trans Z1 (eq_trans Y2 (eq_trans A1 (eq_trans (eq_sym C1) (eq_sym W1))))) Z2 W2) as (y & U1 & U2 & U3 & U4).
      rewrite U1. cbn [bind]. destruct (g_vscale lam c HI sq sr Fq Es) as (V1 & V2 & V3). destruct (g_vscale lam c HI _ tr V2 Et) as (T1 & T2 & T3).
      assert (Ly : length y = 2 * M2 + 1) by lia.
      destruct (g_vadd lam c HI y _ (eq_trans Ly (eq_sym (eq_trans T1 (eq_trans V1 Lq)))) U3 T2) as (z & S1 & S2 & S3 & S4).
      rewrite S1. cbn [bind]. destruct (g_vadd lam c HI P z ltac:(lia) E3 S3) as (P' & R1 & R2 & R3 & R4). exists P'. rewrite R1.
      split; [reflexivity|]. split; [lia|]. split; [exact R3|]. intros R HR. rewrite R4, E4 by exact HR. rewrite gsum_S. unfold gadd at 1. f_equal.
      rewrite S4, U4, T3, V3, Hq, Z3, W3, Y4, X3, A3, B3, C3 by exact HR. unfold ax, bx. fold r sr tr. symmetry.
      apply (g_identity lam c HI); auto; try apply Sx_elt. apply L1_elt. exact HR. }
  apply G. lia.
Qed.
(** its values at the first m2 points *)
Lemma Sx_at v j k : str sb v -> k < M2 -> Sx v j (nth k (xs2 I c) 0%N) = bv v j k.
Proof.
  intros Hv Hk. unfold Sx, inner. rewrite <- (xs_prefix I c k) by lia. rewrite (gsum_one _ _ k).
  - rewrite (lg_delta _ _ _ _ G1) by (rewrite len1; lia). rewrite Nat.eqb_refl. unfold pad0. destruct (Nat.ltb_spec k M2); [|lia].
    apply (g_mul_1_l lam c HI). apply bv_elt. exact Hv.
  - lia.
  - intros i Hi Hne. rewrite (lg_delta _ _ _ _ G1) by (rewrite len1; lia). destruct (Nat.eqb_spec k i); [congruence|]. apply (g_mul_0_l lam c HI).
Qed.
Lemma L1_at k : k < M2 -> lag c pre1 M2 (nth k (xs2 I c) 0%N) = 0%N.
Proof.
  intros Hk. rewrite <- (xs_prefix I c k) by lia. rewrite (lg_delta _ _ _ _ G1) by (rewrite len1; lia).
  destruct (Nat.eqb_spec k M2); [lia|reflexivity].
Qed.
Lemma bv_one j k : j < M1 -> k < M2 -> gmul c (bv s j k) (bv t j k) = 1%N.
Proof.
  intros Hj Hk. pose proof (idx_ok I c nk OK j k Hj Hk) as Hi. unfold bv.
  destruct (api_lift_hom lam c HI) as (_ & One & Hom).
  assert (A : (nth (j + M1 * k) s 0 < 256)%N) by (apply is_bytes_nth, Hs). assert (B : (nth (j + M1 * k) t 0 < 256)%N) by (apply is_bytes_nth, Ht).
  destruct (Hom _ _ A B) as (_ & _ & Hm & _). rewrite <- (Hm 1%N); [exact One|].
  apply aes_product_iff; auto. rewrite <- fmul_gf8 by assumption. symmetry. apply Hst. exact Hi.
Qed.
Lemma product_at rs s_rnd t_rnd k : length rs = M1 -> Forall E rs -> k < M2 ->
  gsum M1 (fun j => gmul c (ax (nth j rs 0%N) (nth j s_rnd 0%N) j (nth k (xs2 I c) 0%N)) (bx (nth j t_rnd 0%N) j (nth k (xs2 I c) 0%N))) = sum_r I rs.
Proof.
  intros Lr Fr Hk. unfold sum_r. apply gsum_ext. intros j Hj. unfold ax, bx. cbn beta. rewrite !Sx_at by auto.
  cbn beta. rewrite L1_at by exact Hk. rewrite !(g_mul_0_r lam c HI).
  unfold gadd. rewrite !N.lxor_0_r. assert (E (nth j rs 0%N)) by (apply (E_nth lam c HI); exact Fr).
  rewrite (g_assoc lam c HI) by (auto; apply bv_elt; auto). rewrite bv_one by auto. apply (g_mul_1_r lam c HI). assumption.
Qed.

(** *** the shares *)
Variables (ssh tsh tapes : nat -> bytes).
Hypothesis HT : forall p, p < n -> tape_ok I (tapes p).
Hypothesis Hss : forall p, p < n -> str sb (ssh p).
Hypothesis Hts : forall p, p < n -> str sb (tsh p).
Hypothesis Ssum : bsum sb n ssh = s.
Hypothesis Tsum : bsum sb n tsh = t.
Variable rs : list N.
Hypothesis Lr : length rs = M1.
Hypothesis Fr : Forall E rs.

Definition sr (j : nat) : N := gsum n (fun p => t_s I (tapes p) j).
Definition tr (j : nat) : N := gsum n (fun p => t_t I (tapes p) j).
Lemma sr_elt j : j < M1 -> E (sr j).
Proof. intros Hj. apply (E_gsum lam c HI). intros p Hp. apply (t_s_elt I c nk OK); auto. Qed.
Lemma tr_elt j : j < M1 -> E (tr j).
Proof. intros Hj. apply (E_gsum lam c HI). intros p Hp. apply (t_t_elt I c nk OK); auto. Qed.
Lemma lift_sum (f : nat -> bytes) v i : (forall p, p < n -> str sb (f p)) -> bsum sb n f = v -> i < sb ->
  gsum n (fun p => lift c (nth i (f p) 0%N)) = lift c (nth i v 0%N).
Proof.
  intros Hf <- Hi. rewrite nth_bsum by (auto; intros p Hp; apply Hf; exact Hp). symmetry. apply (lift_gsum lam c HI).
  intros p Hp. apply is_bytes_nth. apply Hf. exact Hp.
Qed.
(** the sum of the parties' points of S_j and T_j *)
Lemma s_pt_sum j k : j < M1 -> k < M2 + 1 ->
  gsum n (fun p => v_s I c rs ssh tapes p j k) = if k <? M2 then gmul c (nth j rs 0%N) (bv s j k) else sr j.
Proof.
  intros Hj Hk. unfold v_s, s_pt, bv. destruct (Nat.ltb_spec k M2).
  - rewrite <- (gmul_gsum lam c HI).
    + f_equal. apply lift_sum; auto. apply (idx_ok I c nk OK); auto.
    + apply (E_nth lam c HI). exact Fr.
    + intros p Hp. apply (lift_elt lam c HI). apply is_bytes_nth. apply Hss. exact Hp.
  - reflexivity.
Qed.
Lemma t_pt_sum j k : j < M1 -> k < M2 + 1 -> gsum n (fun p => v_t I c tsh tapes p j k) = if k <? M2 then bv t j k else tr j.
Proof.
  intros Hj Hk. unfold v_t, t_pt, bv. destruct (Nat.ltb_spec k M2); [|reflexivity].
  apply lift_sum; auto. apply (idx_ok I c nk OK); auto.
Qed.
Lemma inner_last (f g : nat -> N) R x : E R -> E x -> (forall k, k < M2 -> E (g k)) -> (forall k, k < M2 + 1 -> f k = if k <? M2 then g k else x) ->
  inner c (M2 + 1) (L1 R) f = gadd (inner c (M2 + 1) (L1 R) (pad0 g)) (gmul c x (lag c pre1 M2 R)).
Proof.
  intros HR Hx Hg Hf. unfold inner. rewrite !Nat.add_1_r, !gsum_S. unfold gadd.
  rewrite (Hf M2) by lia. rewrite Nat.ltb_irrefl. unfold pad0 at 2. rewrite Nat.ltb_irrefl, (g_mul_0_r lam c HI), N.lxor_0_r.
  rewrite (g_mul_comm c x). f_equal. apply gsum_ext. intros k Hk. rewrite Hf by lia. unfold pad0. destruct (Nat.ltb_spec k M2); [reflexivity|lia].
Qed.
(** the sum of the parties' shares of a_j and b_j at R *)
Lemma a_sum R j : E R -> j < M1 -> gsum n (fun p => inner c (M2 + 1) (L1 R) (v_s I c rs ssh tapes p j)) = ax (nth j rs 0%N) (sr j) j R.
Proof.
  intros HR Hj. rewrite (inner_sum I c nk OK (M2 + 1) (L1 R) n (fun p => v_s I c rs ssh tapes p j)).
  - rewrite (inner_last _ (fun k => gmul c (nth j rs 0%N) (bv s j k)) R (sr j) HR (sr_elt j Hj)).
    + unfold ax. f_equal. unfold Sx, inner. rewrite (gmul_gsum lam c HI).
      * apply gsum_ext. intros k Hk. rewrite (g_mul_swap lam c HI); [f_equal|apply (E_nth lam c HI); exact Fr|apply L1_elt; exact HR|apply pad0_elt; exact Hs].
        unfold pad0. destruct (k <? M2); [reflexivity|symmetry; apply (g_mul_0_r lam c HI)].
      * apply (E_nth lam c HI). exact Fr.
      * intros k Hk. apply (E_mul lam c HI).
    + intros k Hk. apply (E_mul lam c HI).
    + intros k Hk. apply s_pt_sum; assumption.
  - intros k Hk. apply L1_elt. exact HR.
  - intros p k Hp Hk. apply (s_pt_elt I c nk OK); auto.
Qed.
Lemma b_sum R j : E R -> j < M1 -> gsum n (fun p => inner c (M2 + 1) (L1 R) (v_t I c tsh tapes p j)) = bx (tr j) j R.
Proof.
  intros HR Hj. rewrite (inner_sum I c nk OK (M2 + 1) (L1 R) n (fun p => v_t I c tsh tapes p j)).
  - rewrite (inner_last _ (bv t j) R (tr j) HR (tr_elt j Hj)).
    + reflexivity.
    + intros k Hk. apply bv_elt. exact Ht.
    + intros k Hk. apply t_pt_sum; assumption.
  - intros k Hk. apply L1_elt. exact HR.
  - intros p k Hp Hk. apply (t_pt_elt I c nk OK); auto.
Qed.

(** the polynomial P and its corrections *)
Definition P_is (P : list N) : Prop := length P = 2 * M2 + 1 /\ Forall E P /\
  forall R, E R -> H0 P R = gsum M1 (fun j => gmul c (ax (nth j rs 0%N) (sr j) j R) (bx (tr j) j R)).
Definition delta_is (P ds : list N) : Prop := length ds = M2 + 1 /\
  forall i, i < M2 + 1 -> nth i ds 0%N = N.lxor (H0 P (nth (M2 + i) (xs2 I c) 0%N)) (gsum n (fun p => t_P I (tapes p) i)).
Lemma delta_elt P ds : P_is P -> delta_is P ds -> Forall E ds.
Proof.
  intros (_ & FP & _) [Ld Hd]. apply Forall_forall. intros x Hx. apply (In_nth _ _ 0%N) in Hx. destruct Hx as (i & Hi & <-).
  rewrite Hd by lia. apply (E_xor lam c HI).
  - apply (E_horner lam c HI); [exact FP|apply (xs2_elt I c nk OK); lia].
  - apply (E_gsum lam c HI). intros p Hp. apply (t_P_elt I c nk OK); [auto|lia].
Qed.
Lemma P_sum P ds k : P_is P -> delta_is P ds -> k < 2 * M2 + 1 ->
  gsum n (fun p => P_adj I rs ds p (tapes p) k) = H0 P (nth k (xs2 I c) 0%N).
Proof.
  intros (LP & FP & HP) [Ld Hd] Hk. pose proof (n_pos I c nk OK) as Hn. unfold P_adj, P_pt. destruct (Nat.ltb_spec k M2) as [Hlt|Hge].
  - rewrite HP by (apply (xs2_elt I c nk OK); exact Hk). symmetry.
    pose proof (product_at rs (map sr (seq 0 M1)) (map tr (seq 0 M1)) k Lr Fr Hlt) as X.
    rewrite (gsum_ext M1 _ (fun j => gmul c (ax (nth j rs 0%N) (nth j (map sr (seq 0 M1)) 0%N) j (nth k (xs2 I c) 0%N))
      (bx (nth j (map tr (seq 0 M1)) 0%N) j (nth k (xs2 I c) 0%N)))) by (intros j Hj; rewrite !nth_map_seq by exact Hj; reflexivity).
    rewrite X. rewrite (gsum_one _ _ 0).
    + reflexivity.
    + lia.
    + intros p Hp Hne. cbn [negb]. rewrite andb_false_r. apply Nat.eqb_neq in Hne. rewrite Hne. reflexivity.
  - cbn [negb]. rewrite (gsum_ext n _ (fun p => N.lxor (t_P I (tapes p) (k - M2)) (if p =? 0 then nth (k - M2) ds 0%N else 0%N))).
    + rewrite gsum_add. rewrite (gsum_one n (fun p => if p =? 0 then nth (k - M2) ds 0%N else 0%N) 0);
        [|lia|intros p _ Hne; apply Nat.eqb_neq in Hne; rewrite Hne; reflexivity].
      cbn [Nat.eqb]. rewrite Hd by lia. replace (M2 + (k - M2)) with k by lia.
      rewrite (N.lxor_comm (H0 P (nth k (xs2 I c) 0%N))), <- N.lxor_assoc, N.lxor_nilpotent. apply N.lxor_0_l.
    + intros p _. destruct (p =? 0); cbn [andb]; [reflexivity|]. symmetry. apply N.lxor_0_r.
Qed.
(** the shares of c add up to P(R), and the relation the signer checks holds *)
Lemma c_sum P ds R : P_is P -> delta_is P ds -> E R -> gsum n (fun p => inner c (2 * M2 + 1) (L2 R) (P_adj I rs ds p (tapes p))) = H0 P R.
Proof.
  intros HP Hd HR. rewrite (inner_sum I c nk OK (2 * M2 + 1) (L2 R) n (fun p => P_adj I rs ds p (tapes p))).
  - pose proof HP as (LP & FP & _). rewrite <- (lg_value _ _ _ _ G2 P R); [|rewrite len2; exact LP|exact FP|exact HR]. rewrite len2.
    unfold inner. apply gsum_ext. intros k Hk. rewrite (P_sum P ds k) by assumption. reflexivity.
  - intros k Hk. apply L2_elt. exact HR.
  - intros p k Hp Hk. apply (P_adj_elt I c nk OK); auto. apply (delta_elt P); assumption.
Qed.
Lemma relation P R : P_is P -> E R ->
  gsum M1 (fun j => gmul c (ax (nth j rs 0%N) (sr j) j R) (bx (tr j) j R)) = H0 P R.
Proof. intros (_ & _ & HP) HR. symmetry. apply HP. exact HR. Qed.

(** *** phase 3 *)
Lemma random_point_ok (row : nat -> nat -> nat -> N) (g : nat -> nat -> N) j : j < M1 -> (forall p, p < n -> row p j M2 = g p j) ->
  random_point I (map (fun p => map (fun j => map (row p j) (seq 0 (M2 + 1))) (seq 0 M1)) (seq 0 n)) j = Ok (gsum n (fun p => g p j)).
Proof.
  intros Hj Hg. unfold random_point.
  assert (G : forall m, m <= n -> foldM (fun acc pp => do row <- get pp j; do x <- get row M2; Ok (gadd acc x))
    (map (fun p => map (fun j => map (row p j) (seq 0 (M2 + 1))) (seq 0 M1)) (seq 0 m)) 0%N = Ok (gsum m (fun p => g p j))).
  { induction m; intros Hm; [reflexivity|]. rewrite seq_S, map_app, PolyProofs.foldM_app, IHm by lia. cbn [Nat.add bind map foldM].
    rewrite get_map_seq by exact Hj. cbn [bind]. rewrite get_map_seq by lia. cbn [bind]. rewrite gsum_S. rewrite Hg by lia. reflexivity. }
  apply G. lia.
Qed.
Lemma P_deltas_ok P : Forall E P -> P_deltas_of I c P (xs2 I c) (map (fun p => map (P_pt I rs p (tapes p)) (seq 0 (2 * M2 + 1))) (seq 0 n)) =
  Ok (map (fun i => N.lxor (H0 P (nth (M2 + i) (xs2 I c) 0%N)) (gsum n (fun p => t_P I (tapes p) i))) (seq 0 (M2 + 1))).
Proof.
  intros FP. unfold P_deltas_of. apply mapM_seq. intros i Hi. rewrite (get_ok (xs2 I c) _ 0%N) by (rewrite len2; lia). cbn [bind].
  rewrite (api_eval lam c HI P _ FP) by (apply (xs2_elt I c nk OK); lia).
  assert (G : forall m a, m <= n -> foldM (fun acc sh => do y <- get sh (M2 + i); Ok (gadd acc y))
    (map (fun p => map (P_pt I rs p (tapes p)) (seq 0 (2 * M2 + 1))) (seq 0 m)) a = Ok (N.lxor a (gsum m (fun p => t_P I (tapes p) i)))).
  { induction m; intros a Hm; [cbn; rewrite N.lxor_0_r; reflexivity|]. rewrite seq_S, map_app, PolyProofs.foldM_app, IHm by lia.
    cbn [Nat.add bind map foldM]. rewrite get_map_seq by lia. cbn [bind]. rewrite gsum_S. unfold gadd. rewrite N.lxor_assoc. unfold P_pt.
    destruct (Nat.ltb_spec (M2 + i) M2); [lia|]. replace (M2 + i - M2) with i by lia. reflexivity. }
  rewrite G by lia. reflexivity.
Qed.
Lemma sign_phase3_ok prods sq k1 k2 ky bc : length prods = M1 -> (forall j, j < M1 -> prod_ok j (nth j prods ([], [], []))) ->
  length sq = 2 * M2 + 1 -> Forall E sq -> (forall R, E R -> H0 sq R = gmul c (lag c pre1 M2 R) (lag c pre1 M2 R)) ->
  exists P ds, sign_phase3 I c (xs2 I c) prods sq rs
     (mkRep1 k1 k2 ky (map tsh (seq 0 n)) (map ssh (seq 0 n)) bc) (map tapes (seq 0 n)) =
    Ok (mkRep3 (map (v_pts I c rs ssh tsh tapes) (seq 0 n)) P (map (v_P I rs ds tapes) (seq 0 n)) ds) /\ P_is P /\ delta_is P ds.
Proof.
  intros Lp Hp Lq Fq Hq. unfold sign_phase3. cbn [r1_s r1_t].
  rewrite (mapM_seq _ (v_pts I c rs ssh tsh tapes)).
  2:{ intros p Hpn. rewrite !get_map_seq by exact Hpn. cbn [bind]. apply (party_points_ok I c nk OK); auto; [apply Hss|apply Hts]; exact Hpn. }
  cbn [bind]. rewrite !map_map. unfold v_pts, pts_of. cbn [fst snd].
  rewrite (mapM_seq _ sr).
  2:{ intros j Hj. apply (random_point_ok (fun p => s_pt I c rs (ssh p) (tapes p)) (fun p => t_s I (tapes p))); [exact Hj|]. intros p Hpn. unfold s_pt. rewrite Nat.ltb_irrefl. reflexivity. }
  cbn [bind]. rewrite (mapM_seq _ tr).
  2:{ intros j Hj. apply (random_point_ok (fun p => t_pt I c (tsh p) (tapes p)) (fun p => t_t I (tapes p))); [exact Hj|]. intros p Hpn. unfold t_pt. rewrite Nat.ltb_irrefl. reflexivity. }
  cbn [bind].
  destruct (P_poly_ok rs prods sq (map sr (seq 0 M1)) (map tr (seq 0 M1))) as (P & E1 & E2 & E3 & E4); auto.
  { apply length_map_seq. }
  { apply Forall_map, Forall_forall. intros j Hj. apply in_seq in Hj. apply sr_elt. lia. }
  { apply length_map_seq. }
  { apply Forall_map, Forall_forall. intros j Hj. apply in_seq in Hj. apply tr_elt. lia. }
  rewrite E1. cbn [bind].
  rewrite (mapM_seq _ (fun p => map (P_pt I rs p (tapes p)) (seq 0 (2 * M2 + 1)))).
  2:{ intros p Hpn. rewrite get_map_seq by exact Hpn. cbn [bind]. apply (P_share_ok I c nk OK); auto. }
  cbn [bind]. rewrite (P_deltas_ok P E3). cbn [bind].
  set (ds := map (fun i => N.lxor (H0 P (nth (M2 + i) (xs2 I c) 0%N)) (gsum n (fun p => t_P I (tapes p) i))) (seq 0 (M2 + 1))).
  assert (Ld : length ds = M2 + 1) by apply length_map_seq.
  rewrite (adjust_shares I c nk OK) by exact Ld. cbn [bind]. exists P, ds. split; [reflexivity|]. split.
  - split; [exact E2|]. split; [exact E3|]. intros R HR. rewrite E4 by exact HR. apply gsum_ext. intros j Hj.
    rewrite !nth_map_seq by exact Hj. reflexivity.
  - split; [exact Ld|]. intros i Hi. unfold ds. rewrite nth_map_seq by exact Hi. reflexivity.
Qed.

(** *** phase 5 *)
Definition opened (P : list N) (R : N) : view :=
  ((map (fun j => ax (nth j rs 0%N) (sr j) j R) (seq 0 M1), map (fun j => bx (tr j) j R) (seq 0 M1)), H0 P R).
Lemma fold_views (f : nat -> view) (sel : view -> list N) (g : nat -> N) j : (forall p, p < n -> get (sel (f p)) j = Ok (g p)) ->
  foldM (fun acc v => do x <- get (sel v) j; Ok (gadd acc x)) (map f (seq 0 n)) 0%N = Ok (gsum n g).
Proof.
  intros Hg. assert (G : forall m, m <= n -> foldM (fun acc v => do x <- get (sel v) j; Ok (gadd acc x)) (map f (seq 0 m)) 0%N = Ok (gsum m g)).
  { induction m; intros Hm; [reflexivity|]. rewrite seq_S, map_app, PolyProofs.foldM_app, IHm by lia. cbn [Nat.add bind map foldM].
    rewrite Hg by lia. cbn [bind]. rewrite gsum_S. reflexivity. }
  apply G. lia.
Qed.
Lemma sign_phase5_ok P ds R : P_is P -> delta_is P ds -> E R ->
  sign_phase5 I c pre1 pre2 R (mkRep3 (map (v_pts I c rs ssh tsh tapes) (seq 0 n)) P (map (v_P I rs ds tapes) (seq 0 n)) ds) =
  Ok (opened P R, map (known I c (L1 R) (L2 R) rs ds ssh tsh tapes) (seq 0 n)).
Proof.
  intros HP Hd HR. unfold sign_phase5. cbn [r3_pts r3_shares].
  pose proof (lagrange_at_ok I c nk OK _ _ R G1 HR) as X1. pose proof (lagrange_at_ok I c nk OK _ _ R G2 HR) as X2.
  rewrite len1 in X1. rewrite len2 in X2. rewrite X1. cbn [bind]. rewrite X2. cbn [bind].
  rewrite (mapM_seq _ (known I c (L1 R) (L2 R) rs ds ssh tsh tapes)).
  2:{ intros p Hp. rewrite !get_map_seq by exact Hp. cbn [bind]. unfold v_pts, pts_of, v_P. rewrite (party_view_ok I c nk OK). reflexivity. }
  cbn [bind].
  rewrite (mapM_seq _ (fun j => ax (nth j rs 0%N) (sr j) j R)).
  2:{ intros j Hj. rewrite <- (a_sum R j HR Hj). apply fold_views. intros p Hp. unfold known, view_of, v_a. cbn [fst snd]. rewrite get_map_seq by exact Hj. reflexivity. }
  cbn [bind].
  rewrite (mapM_seq _ (fun j => bx (tr j) j R)).
  2:{ intros j Hj. rewrite <- (b_sum R j HR Hj). apply fold_views. intros p Hp. unfold known, view_of, v_b. cbn [fst snd]. rewrite get_map_seq by exact Hj. reflexivity. }
  cbn [bind]. do 2 f_equal. unfold opened. f_equal. rewrite (fold_left_xor v_c). rewrite map_map, N.lxor_0_l.
  rewrite <- (c_sum P ds R HP Hd HR). reflexivity.
Qed.
Lemma accumulate_opened P R : P_is P -> E R -> accumulate I c (v_a (opened P R)) (v_b (opened P R)) = Ok (v_c (opened P R)).
Proof.
  intros HP HR. unfold opened, v_a, v_b, v_c. cbn [fst snd]. rewrite (accumulate_ok I c) by apply length_map_seq.
  rewrite <- (relation P R HP HR). f_equal. apply gsum_ext. intros j Hj. rewrite !nth_map_seq by exact Hj. reflexivity.
Qed.
Lemma opened_elt P R : P_is P -> E R -> Forall E (v_a (opened P R)) /\ Forall E (v_b (opened P R)) /\ E (v_c (opened P R)).
Proof.
  intros (_ & FP & _) HR. unfold opened, v_a, v_b, v_c. cbn [fst snd]. split; [|split].
  - apply Forall_map, Forall_forall. intros j Hj. unfold ax. apply (E_add lam c HI); apply (E_mul lam c HI).
  - apply Forall_map, Forall_forall. intros j Hj. unfold bx. apply (E_add lam c HI); [apply Sx_elt|apply (E_mul lam c HI)].
  - apply (E_horner lam c HI); assumption.
Qed.
(** the verifier's view of the hidden party is the party's own *)
Lemma v_views_eq P ds R m p : P_is P -> delta_is P ds -> E R -> m < n -> p < n ->
  v_views I c (L1 R) (L2 R) rs ds ssh tsh tapes m (opened P R) p = known I c (L1 R) (L2 R) rs ds ssh tsh tapes p.
Proof.
  intros HP Hd HR Hm Hp. unfold v_views. destruct (Nat.eqb_spec p m) as [->|]; [|reflexivity]. unfold known, view_of. f_equal; [f_equal|].
  - apply map_seq_ext. intros j Hj. unfold opened at 1, v_a at 1. cbn [fst snd]. rewrite nth_map_seq by lia. rewrite <- a_sum by (auto; lia). apply gsum_recover. exact Hm.
  - apply map_seq_ext. intros j Hj. unfold opened at 1, v_b at 1. cbn [fst snd]. rewrite nth_map_seq by lia. rewrite <- b_sum by (auto; lia). apply gsum_recover. exact Hm.
  - unfold opened at 1, v_c at 1. cbn [fst snd]. rewrite <- (c_sum P ds R HP Hd HR). apply gsum_recover. exact Hm.
Qed.
End Poly.
