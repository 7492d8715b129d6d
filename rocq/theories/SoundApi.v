(** The theorems of PropSound in the form they are stated there. *)
From Coq Require Import Arith NArith ZArith List Bool Lia.
From Verif Require Import Prelude FieldModel FieldSpec FieldApi FieldLin PolyModel PolyProofs FieldSig Gf8 Instances HashModel TreeModel TreeSpec AesSpec AesModel AesBase AesApi AesShares BanquetModel ContainerModel ListSum BanquetHash BanquetPure BanquetPoly BanquetVerify BanquetCtx BanquetRun BanquetApi SignFacts ChallengeFacts TapeFacts HashFacts Serialize SerialFacts ShareFacts KeygenBad PropSign Forge SigSpec VerifyTree VerifyFacts VerifyOutcome AcceptFacts AlterFacts VerifyCases ExtractSpec ExtractPoly ExtractFacts FreeSpec Unbias UnbiasApi LateSpec LateFacts ExtractApi SoundSpec SoundFacts.
Import ListNotations.

Section Sound.
Variables (I : instance) (c : fctx).
Hypothesis HB : regular I.
Hypothesis Hc : init_extension_field (lambda I) = Ok c.
Notation lam := (lambda I).
Notation F := (field_size I).
Notation P := (num_points I).
Notation M1 := (m1 I).
Notation M2 := (m2 I).
Notation T := (num_rounds I).

Definition elems : list N := map N.of_nat (seq 0 F).
Lemma elems_in x : In x elems <-> elt lam x.
Proof.
  unfold elems, elt, field_size. assert (Q : N.of_nat (256 ^ lam) = (2 ^ (8 * N.of_nat lam))%N) by (rewrite Nat2N.inj_pow, N.pow_mul_r; reflexivity).
  rewrite in_map_iff, <- Q. split.
  - intros (k & <- & Hk). apply in_seq in Hk. lia.
  - intros Hx. exists (N.to_nat x). split; [apply N2Nat.id|apply in_seq; lia].
Qed.
Lemma elems_nodup : NoDup elems.
Proof. unfold elems. apply FinFun.Injective_map_NoDup; [intros x y; apply Nat2N.inj|apply seq_NoDup]. Qed.
Lemma elems_length : length elems = F.
Proof. unfold elems. rewrite map_length, seq_length. reflexivity. Qed.
Definition W1 : list (list N) := tuples elems M1.
Definition W2 : list N := filter (allowed_point I c) elems.
Lemma W1_in rs : In rs W1 <-> length rs = M1 /\ Forall (elt lam) rs.
Proof.
  unfold W1. rewrite in_tuples. split; intros [L A]; split; try exact L; rewrite Forall_forall in *; intros x Hx; apply elems_in; apply A; exact Hx.
Qed.
Lemma W1_nodup : NoDup W1.
Proof. apply NoDup_tuples, elems_nodup. Qed.
Lemma W1_length : length W1 = F ^ M1.
Proof. unfold W1. rewrite length_tuples, elems_length. reflexivity. Qed.
Lemma allowed_iff x : allowed_point I c x = true <-> ~ In x (get_first_n_field_elements c M2).
Proof.
  unfold allowed_point. rewrite negb_true_iff, <- not_true_iff_false, existsb_exists. split; intros H X; apply H.
  - exists x. split; [exact X|apply N.eqb_refl].
  - destruct X as (y & Hy & E). apply N.eqb_eq in E. subst y. exact Hy.
Qed.
Lemma W2_in x : In x W2 <-> elt lam x /\ ~ In x (get_first_n_field_elements c M2).
Proof. unfold W2. rewrite filter_In, elems_in, allowed_iff. reflexivity. Qed.
Lemma W2_nodup : NoDup W2.
Proof. apply NoDup_filter, elems_nodup. Qed.
Lemma ok_ctx : inst_ok I c (nk_of I).
Proof.
  destruct (regular_inst_ok I HB) as [c' OK]. assert (c' = c) by (pose proof (io_field _ _ _ OK) as X; rewrite Hc in X; injection X as <-; reflexivity). subst c'. exact OK.
Qed.
Lemma W2_length : M2 <= F /\ length W2 = P.
Proof.
  destruct (api_points _ _ Hc M2 (points_ok I c _ ok_ctx M2 ltac:(lia))) as (ND & L & FA). pose proof (filter_split (allowed_point I c) elems) as SP. rewrite elems_length in SP.
  assert (Z : length (filter (fun x => negb (allowed_point I c x)) elems) = M2).
  { rewrite <- L. apply Nat.le_antisymm; apply NoDup_incl_length.
    - apply NoDup_filter, elems_nodup.
    - intros x Hx. apply filter_In in Hx. destruct Hx as [_ Hx]. unfold allowed_point in Hx. rewrite negb_involutive in Hx. apply existsb_exists in Hx. destruct Hx as (y & Hy & E). apply N.eqb_eq in E. subst y. exact Hy.
    - exact ND.
    - intros x Hx. apply filter_In. rewrite Forall_forall in FA. split; [apply elems_in; apply FA; exact Hx|]. unfold allowed_point. rewrite negb_involutive. apply existsb_exists. exists x. split; [exact Hx|apply N.eqb_refl]. }
  unfold num_points, W2. lia.
Qed.
Lemma M1_pos : 1 <= M1.
Proof. exact (io_m1 _ _ _ ok_ctx). Qed.

(** *** bad coefficients: one coordinate is determined by the others *)
Definition without (j : nat) (rs : list N) : list N := firstn j rs ++ skipn (S j) rs.
Lemma without_nth j rs k : j < length rs -> nth k (without j rs) 0%N = nth (if k <? j then k else S k) rs 0%N.
Proof.
  intros Hj. unfold without. destruct (Nat.ltb_spec k j) as [L|L].
  - rewrite app_nth1 by (rewrite firstn_length; lia). rewrite <- (firstn_skipn j rs) at 2. rewrite app_nth1 by (rewrite firstn_length; lia). reflexivity.
  - rewrite app_nth2 by (rewrite firstn_length; lia). rewrite firstn_length_le by lia. rewrite <- (firstn_skipn (S j) rs) at 2. rewrite app_nth2 by (rewrite firstn_length; lia). rewrite firstn_length_le by lia. reflexivity.
Qed.
Lemma few_bad_coefs s t zs : is_bytes s -> is_bytes t -> NoDup zs -> incl zs W1 -> (forall rs, In rs zs -> bad_coefs I c rs s t) -> length zs <= F ^ (M1 - 1).
Proof.
  intros Bs Bt ND IN HZ. destruct zs as [|z zs]; [cbn; lia|]. destruct (HZ z (or_introl eq_refl)) as [(i & Hi & NR) _].
  pose proof M1_pos as M1p. set (j := i mod M1). assert (Hj : j < M1) by (apply Nat.mod_upper_bound; lia).
  rewrite <- elems_length, <- length_tuples, <- (map_length (without j)). apply NoDup_incl_length.
  - assert (INJ : forall x y, In x (z :: zs) -> In y (z :: zs) -> without j x = without j y -> x = y).
    { intros x y Hx Hy E. destruct (proj1 (W1_in x) (IN _ Hx)) as [Lx Fx]. destruct (proj1 (W1_in y) (IN _ Hy)) as [Ly Fy].
      apply (few_coefs I c HB Hc s t i x y Bs Bt Hi NR Lx Ly Fx Fy); [|apply HZ; exact Hx|apply HZ; exact Hy].
      intros k Nk. fold j in Nk. destruct (Nat.ltb_spec k j) as [L|L].
      - pose proof (f_equal (fun l => nth k l 0%N) E) as Q. cbn beta in Q. rewrite !without_nth in Q by lia. destruct (Nat.ltb_spec k j); [exact Q|lia].
      - pose proof (f_equal (fun l => nth (k - 1) l 0%N) E) as Q. cbn beta in Q. rewrite !without_nth in Q by lia. destruct (Nat.ltb_spec (k - 1) j); [lia|]. replace (S (k - 1)) with k in Q by lia. exact Q. }
    clear IN HZ NR. revert ND INJ. generalize (z :: zs). intros l ND. induction ND as [|x l Hx ND IH]; intros INJ; cbn [map]; constructor.
    + intros Q. apply in_map_iff in Q. destruct Q as (y & E & Hy). apply Hx. rewrite <- (INJ y x); [exact Hy|right; exact Hy|left; reflexivity|exact E].
    + apply IH. intros a b Ha Hb. apply INJ; right; assumption.
  - intros r Hr. apply in_map_iff in Hr. destruct Hr as (x & <- & Hx). destruct (proj1 (W1_in x) (IN _ Hx)) as [Lx Fx]. apply in_tuples. unfold without. split.
    + rewrite app_length, firstn_length, skipn_length. lia.
    + rewrite Forall_forall in *. intros y Hy. apply elems_in. apply Fx. apply in_app_or in Hy. rewrite <- (firstn_skipn (S j) x).
      destruct Hy as [Hy|Hy]; apply in_or_app; [left|right; exact Hy]. replace (firstn j x) with (firstn j (firstn (S j) x)) in Hy by (rewrite firstn_firstn; f_equal; lia).
      rewrite <- (firstn_skipn j (firstn (S j) x)). apply in_or_app. left. exact Hy.
Qed.
Lemma coefs_bound s t k l : (forall e, is_bytes (s e)) -> (forall e, is_bytes (t e)) -> NoDup l ->
  (forall rss, In rss l -> coef_challenge I rss /\ at_least k T (fun e => bad_coefs I c (nth e rss []) (s e) (t e))) ->
  length l * F ^ k <= choose T k * (F ^ M1) ^ T.
Proof.
  intros Bs Bt ND H. pose proof M1_pos as M1p.
  assert (dec : forall x y : list N, {x = y} + {x <> y}) by apply (list_eq_dec N.eq_dec).
  assert (Q : length l <= choose T k * (F ^ (M1 - 1)) ^ k * length W1 ^ (T - k)).
  { apply (many_bound _ dec W1 [] (fun e rs => bad_coefs I c rs (s e) (t e)) T (F ^ (M1 - 1)) W1_nodup).
    - intros e zs _ NDz INz Hz. apply (few_bad_coefs (s e) (t e)); auto.
    - exact ND.
    - intros rss Hr. destruct (H rss Hr) as [[L A] W]. split; [exact L|]. split; [|exact W]. rewrite Forall_forall in *. intros rs Hrs. apply W1_in. apply A. exact Hrs. }
  rewrite W1_length in Q. destruct (le_lt_dec k T) as [G|G]; [|rewrite choose_small in * by exact G; cbn [Nat.mul] in Q; destruct (length l); lia].
  apply (Nat.mul_le_mono_r _ _ (F ^ k)) in Q. etransitivity; [exact Q|]. apply Nat.eq_le_incl.
  rewrite <- !Nat.mul_assoc. f_equal. rewrite <- !Nat.pow_mul_r, <- !Nat.pow_add_r. f_equal. nia.
Qed.
Lemma points_bound rs s t tp ds k l : NoDup l ->
  (forall Rs, In Rs l -> point_challenge I c Rs /\ at_least k T (fun e => bad_point I c (rs e) (s e) (t e) (tp e) (ds e) (nth e Rs 0%N))) ->
  length l * P ^ k <= choose T k * (2 * M2) ^ k * P ^ T.
Proof.
  intros ND H.
  assert (Q : length l <= choose T k * (2 * M2) ^ k * length W2 ^ (T - k)).
  { apply (many_bound _ N.eq_dec W2 0%N (fun e R => bad_point I c (rs e) (s e) (t e) (tp e) (ds e) R) T (2 * M2) W2_nodup).
    - intros e zs _ NDz INz Hz. apply (few_points I c HB Hc (rs e) (s e) (t e) (tp e) (ds e) zs NDz); [|exact Hz]. apply Forall_forall. intros x Hx. apply (W2_in x). apply INz. exact Hx.
    - exact ND.
    - intros Rs Hr. destruct (H Rs Hr) as [[L A] W]. split; [exact L|]. split; [|exact W]. rewrite Forall_forall in *. intros R HR. apply W2_in. apply A. exact HR. }
  rewrite (proj2 W2_length) in Q. destruct (le_lt_dec k T) as [G|G]; [|rewrite choose_small in * by exact G; cbn [Nat.mul] in Q; destruct (length l); lia].
  apply (Nat.mul_le_mono_r _ _ (P ^ k)) in Q. etransitivity; [exact Q|]. apply Nat.eq_le_incl. rewrite <- !Nat.mul_assoc. do 2 f_equal. rewrite <- Nat.pow_add_r. f_equal. lia.
Qed.
Lemma parties_bound g k l : NoDup l -> (forall ps, In ps l -> party_challenge I ps /\ at_least k T (fun e => nth e ps 0 = g e)) ->
  length l * num_parties I ^ k <= choose T k * num_parties I ^ T.
Proof.
  intros ND H.
  assert (Q : length l <= choose T k * 1 ^ k * length (seq 0 (num_parties I)) ^ (T - k)).
  { apply (many_bound _ Nat.eq_dec (seq 0 (num_parties I)) 0 (fun e p => p = g e) T 1 (seq_NoDup _ _)).
    - intros e zs _ NDz INz Hz. change 1 with (length [g e]). apply NoDup_incl_length; [exact NDz|]. intros p Hp. left. symmetry. apply Hz. exact Hp.
    - exact ND.
    - intros ps Hr. destruct (H ps Hr) as [[L A] W]. split; [exact L|]. split; [|exact W]. rewrite Forall_forall in *. intros p Hp. apply in_seq. specialize (A p Hp). lia. }
  rewrite seq_length, Nat.pow_1_l, Nat.mul_1_r in Q. destruct (le_lt_dec k T) as [G|G]; [|rewrite choose_small in * by exact G; cbn [Nat.mul] in Q; destruct (length l); lia].
  apply (Nat.mul_le_mono_r _ _ (num_parties I ^ k)) in Q. etransitivity; [exact Q|]. apply Nat.eq_le_incl. rewrite <- !Nat.mul_assoc. f_equal. rewrite <- Nat.pow_add_r. f_equal. lia.
Qed.
Lemma passes_bound V l : (forall e, is_bytes (pv_in V e)) -> (forall e, is_bytes (pv_out V e)) -> NoDup l ->
  (forall rss Rs ps, In (rss, Rs, ps) l -> coef_challenge I rss /\ point_challenge I c Rs /\ party_challenge I ps /\ forall e, e < T -> passes I c V rss Rs ps e) ->
  length l <= (F ^ (M1 - 1) * P * num_parties I + F ^ M1 * (2 * M2) * num_parties I + F ^ M1 * P) ^ T.
Proof.
  intros Bs Bt ND H. assert (dec : forall x y : list N, {x = y} + {x <> y}) by apply (list_eq_dec N.eq_dec).
  etransitivity.
  - apply (three_bound _ _ dec N.eq_dec [] 0%N W1 W2 (num_parties I) (fun e rs => bad_coefs I c rs (pv_in V e) (pv_out V e))
      (fun rss e R => bad_point I c (nth e rss []) (pv_in V e) (pv_out V e) (pv_tape V e) (pv_delta V rss e) R) (pv_guess V) T (F ^ (M1 - 1)) (2 * M2) W1_nodup W2_nodup) with (l := l).
    + intros e zs _ NDz INz Hz. apply (few_bad_coefs (pv_in V e) (pv_out V e)); auto.
    + intros rss e zs _ _ NDz INz Hz. apply (few_points I c HB Hc (nth e rss []) (pv_in V e) (pv_out V e) (pv_tape V e) (pv_delta V rss e) zs NDz); [|exact Hz]. apply Forall_forall. intros x Hx. apply (W2_in x). apply INz. exact Hx.
    + exact ND.
    + apply Forall_forall. intros [[rss Rs] ps] Hx. destruct (H rss Rs ps Hx) as ([L1 A1] & [L2 A2] & [L3 A3] & W). cbn [through]. repeat split; try assumption.
      * rewrite Forall_forall in *. intros rs Hrs. apply W1_in. apply A1. exact Hrs.
      * rewrite Forall_forall in *. intros R HR. apply W2_in. apply A2. exact HR.
  - rewrite W1_length, (proj2 W2_length). apply Nat.eq_le_incl. f_equal. ring.
Qed.

(** *** the bounds cannot be improved much: one wrong pair, and points of the prover's choice *)
Notation E := (elt lam).
Notation sb := (num_sboxes (i_aes I)).
Notation H0 := (horner gadd (gmul c)).
Lemma right_zero s t i : is_bytes s -> is_bytes t -> right_pair s t i -> gadd (gmul c (lift c (nth i s 0%N)) (lift c (nth i t 0%N))) 1%N = 0%N.
Proof.
  intros Bs Bt R. unfold right_pair in R. assert (A : (nth i s 0 < 256)%N) by (apply is_bytes_nth; exact Bs). assert (B : (nth i t 0 < 256)%N) by (apply is_bytes_nth; exact Bt).
  destruct (api_lift_hom lam c Hc) as (_ & L1 & L). destruct (L _ _ A B) as (_ & _ & LM & _). rewrite (fmul_gf8 _ _ A B) in R.
  rewrite <- (LM (gf8_mul (nth i s 0%N) (nth i t 0%N))) by (apply aes_product_iff; auto). rewrite R, L1. apply N.lxor_nilpotent.
Qed.
Lemma one_wrong s t i rs : is_bytes s -> is_bytes t -> i < sb -> ~ right_pair s t i -> (forall i', i' < sb -> i' <> i -> right_pair s t i') -> length rs = M1 -> Forall E rs ->
  (bad_coefs I c rs s t <-> nth (i mod M1) rs 0%N = 0%N).
Proof.
  intros Bs Bt Hi NR Rest Lr Er. pose proof M1_pos as M1p. pose proof (regular_mm I HB) as MM. set (j := i mod M1). assert (Hj : j < M1) by (apply Nat.mod_upper_bound; lia).
  assert (Ei : j + M1 * (i / M1) = i) by (unfold j; rewrite Nat.add_comm; symmetry; apply Nat.div_mod; lia). assert (Hk : i / M1 < M2) by nia.
  assert (V : forall k, k < M2 -> error I c rs s t k = if k =? i / M1 then gmul c (nth j rs 0%N) (gadd (gmul c (lift c (nth i s 0%N)) (lift c (nth i t 0%N))) 1%N) else 0%N).
  { intros k Hk'. unfold error. fold (gsum M1 (fun j => gmul c (nth j rs 0%N) (gadd (gmul c (lift c (nth (j + M1 * k) s 0%N)) (lift c (nth (j + M1 * k) t 0%N))) 1%N))).
    assert (Z : forall q, q < M1 -> q + M1 * k <> i -> gmul c (nth q rs 0%N) (gadd (gmul c (lift c (nth (q + M1 * k) s 0%N)) (lift c (nth (q + M1 * k) t 0%N))) 1%N) = 0%N).
    { intros q Hq Nq. rewrite (right_zero s t (q + M1 * k) Bs Bt); [apply (g_mul_0_r lam c Hc)|]. apply Rest; [nia|exact Nq]. }
    destruct (Nat.eqb_spec k (i / M1)) as [->|Nk].
    - rewrite (gsum_one M1 _ j Hj); [rewrite Ei; reflexivity|]. intros q Hq Nq. apply Z; [exact Hq|]. lia.
    - etransitivity; [apply (gsum_ext M1 _ (fun _ => 0%N))|apply gsum_zero]. intros q Hq. apply Z; [exact Hq|]. intros Q. apply Nk. rewrite <- Q, Nat.mul_comm, Nat.div_add, (Nat.div_small q M1) by lia. reflexivity. }
  split.
  - intros [_ B]. specialize (B (i / M1) Hk). rewrite V, Nat.eqb_refl in B by exact Hk. destruct (N.eq_dec (nth j rs 0%N) 0) as [Z|Z]; [exact Z|]. exfalso.
    rewrite (g_mul_comm c) in B. apply (mul_eq_0 I c _ ok_ctx) in B; [contradiction|apply (D_E I c Hc)|apply (E_nth lam c Hc); exact Er|apply (D_nz I c Hc); assumption].
  - intros Z. split; [exists i; split; assumption|]. intros k Hk'. rewrite V by exact Hk'. destruct (k =? i / M1); [|reflexivity]. rewrite Z. apply (g_mul_0_l lam c Hc).
Qed.
Lemma choosable rs s t tp zs : length rs = M1 -> Forall E rs -> is_bytes s -> is_bytes t -> (forall off, E (tp off)) ->
  (exists i, i < sb /\ ~ right_pair s t i) -> ~ bad_coefs I c rs s t ->
  NoDup zs -> length zs = M2 + 1 -> Forall (fun R => E R /\ ~ In R (get_first_n_field_elements c M2)) zs ->
  exists ds, (forall k, E (ds k)) /\ forall R, In R zs -> bad_point I c rs s t tp ds R.
Proof.
  intros Lr Er Bs Bt Et Wrong NB NDz Lz Fz. pose proof ok_ctx as OK. pose proof (regular_mm I HB) as MM. pose proof M1_pos as M1p.
  destruct (regular_pow2 I HB) as (kp & HP & Hk8).
  destruct (lagr1 I c _ OK) as [pre1 G1]. destruct (xs1_ok I c _ OK) as (_ & L1 & _). destruct (xs2_ok I c _ OK) as (_ & L2 & _).
  destruct (all_or_one (fun k => N.eqb (error I c rs s t k) 0) M2) as [B|(k0 & Hk0 & B)].
  { exfalso. apply NB. split; [exact Wrong|]. intros k Hk. apply N.eqb_eq, B, Hk. }
  apply N.eqb_neq in B.
  assert (EL : forall (b : bytes) i, is_bytes b -> E (lift c (nth i b 0%N))) by (intros b i Bb; apply (lift_elt lam c Hc); apply is_bytes_nth; exact Bb).
  assert (CH : forall (Pr : nat -> list N -> Prop) d, (forall j, j < d -> exists f, Pr j f) -> exists F, forall j, j < d -> Pr j (F j)).
  { intros Pr d. induction d as [|d IH]; intros Hx; [exists (fun _ => []); lia|]. destruct IH as [G HF]; [intros; apply Hx; lia|]. destruct (Hx d ltac:(lia)) as [f Hf].
    exists (fun j => if j =? d then f else G j). intros j Hj. destruct (Nat.eqb_spec j d) as [->|Ne]; [exact Hf|apply HF; lia]. }
  assert (pt1' : forall k, k < M2 + 1 -> nth k (xs1 I c) 0%N = nth k (get_first_n_field_elements c (2 * M2 + 1)) 0%N) by (intros k Hk; unfold xs1; symmetry; apply points_prefix; lia).
  destruct (CH (S_poly I c rs s tp) M1) as [S HS'].
  { intros j Hj. destruct (poly_exists I c _ _ OK HP Hk8 MM (xs1 I c) pre1 (fun k => if k <? M2 then gmul c (nth j rs 0%N) (lift c (nth (j + M1 * k) s 0%N)) else tp (key_size (i_aes I) + sb + j * 2 * lam)) G1 (xs1E I c _ OK)) as (f & A & B' & V).
    - intros k _. destruct (k <? M2); [apply (E_mul lam c Hc)|apply Et].
    - exists f. split; [lia|]. split; [exact B'|]. split.
      + intros k Hk. specialize (V k ltac:(lia)). rewrite pt1' in V by lia. rewrite V. destruct (Nat.ltb_spec k M2); [reflexivity|lia].
      + specialize (V M2 ltac:(lia)). rewrite pt1' in V by lia. rewrite V, Nat.ltb_irrefl. reflexivity. }
  destruct (CH (T_poly I c t tp) M1) as [TT HT'].
  { intros j Hj. destruct (poly_exists I c _ _ OK HP Hk8 MM (xs1 I c) pre1 (fun k => if k <? M2 then lift c (nth (j + M1 * k) t 0%N) else tp (key_size (i_aes I) + sb + j * 2 * lam + lam)) G1 (xs1E I c _ OK)) as (f & A & B' & V).
    - intros k _. destruct (k <? M2); [apply EL; exact Bt|apply Et].
    - exists f. split; [lia|]. split; [exact B'|]. split.
      + intros k Hk. specialize (V k ltac:(lia)). rewrite pt1' in V by lia. rewrite V. destruct (Nat.ltb_spec k M2); [reflexivity|lia].
      + specialize (V M2 ltac:(lia)). rewrite pt1' in V by lia. rewrite V, Nat.ltb_irrefl. reflexivity. }
  (* Q through the errors and the chosen roots *)
  destruct (api_points _ _ Hc M2 (points_ok I c _ OK M2 ltac:(lia))) as (NDp & Lp & Fp). set (pts := get_first_n_field_elements c M2) in *.
  assert (NDx : NoDup (pts ++ zs)).
  { clear -NDp NDz Fz. assert (D : forall x, In x pts -> ~ In x zs) by (intros x Hx Hz; rewrite Forall_forall in Fz; exact (proj2 (Fz x Hz) Hx)). revert NDp D. generalize pts. intros l ND. induction ND as [|x l Hx ND IH]; intros D; cbn [app]; [exact NDz|].
    constructor; [intros Q; apply in_app_or in Q; destruct Q as [Q|Q]; [contradiction|exact (D x (or_introl eq_refl) Q)]|apply IH; intros y Hy; apply D; right; exact Hy]. }
  assert (Ex : Forall E (pts ++ zs)) by (apply Forall_app; split; [eapply Forall_impl; [|exact Fp]; intros x [_ X]; exact X|eapply Forall_impl; [|exact Fz]; intros x [X _]; exact X]).
  assert (Lx : length (pts ++ zs) = 2 * M2 + 1) by (rewrite app_length; lia).
  destruct (lagr_exists lam c Hc (pts ++ zs) NDx ltac:(lia) Ex) as [pre G].
  assert (EE : forall k, E (error I c rs s t k)) by (intros k; unfold error; apply (E_gsum lam c Hc M1); intros j Hj; apply (E_mul lam c Hc)).
  destruct (poly_exists I c _ _ OK HP Hk8 MM (pts ++ zs) pre (fun k => if k <? M2 then error I c rs s t k else 0%N) G Ex) as (Q & LQ & EQ & VQ); [intros k _; destruct (k <? M2); [apply EE|apply (E_0 lam c Hc)]|].
  assert (VQ1 : forall k, k < M2 -> H0 Q (nth k (get_first_n_field_elements c (2 * M2 + 1)) 0%N) = error I c rs s t k).
  { intros k Hk. specialize (VQ k ltac:(lia)). rewrite app_nth1 in VQ by lia. unfold pts in VQ. rewrite (points_prefix c k M2 (2 * M2 + 1) Hk) by lia. rewrite VQ. destruct (Nat.ltb_spec k M2); [reflexivity|lia]. }
  assert (VQ2 : forall R, In R zs -> H0 Q R = 0%N).
  { intros R HR. apply (In_nth zs R 0%N) in HR. destruct HR as (k & Hk & <-). specialize (VQ (M2 + k) ltac:(lia)). rewrite app_nth2 in VQ by lia. replace (M2 + k - length pts) with k in VQ by lia. rewrite VQ. destruct (Nat.ltb_spec (M2 + k) M2); [lia|reflexivity]. }
  destruct (sum_poly I c _ _ OK HP Hk8 MM rs Lr S TT Q M1) as (P0 & LP & EP & VP); [intros j Hj; destruct (HS' j Hj) as (A & B' & _); auto|intros j Hj; destruct (HT' j Hj) as (A & B' & _); auto|lia|exact EQ|].
  assert (Ept : forall k, E (nth k (get_first_n_field_elements c (2 * M2 + 1)) 0%N)) by (intros k; apply (E_nth lam c Hc); exact (xs2E I c _ OK)).
  exists (fun k => gadd (H0 P0 (nth (M2 + k) (get_first_n_field_elements c (2 * M2 + 1)) 0%N)) (tp (key_size (i_aes I) + sb + M1 * 2 * lam + k * lam))). split.
  { intros k. apply (E_add lam c Hc); [apply (E_horner lam c Hc); [exact EP|apply Ept]|apply Et]. }
  intros R HR. exists Q. split; [|split].
  - split; [lia|]. split; [exact EQ|]. exists S, TT, P0. split; [exact HS'|]. split; [exact HT'|]. split.
    + split; [exact LP|]. split; [exact EP|]. split.
      * intros k Hk. rewrite VP, VQ1 by (exact Hk || apply Ept).
        assert (X : gadd (gsum M1 (fun j => gmul c (H0 (S j) (nth k (get_first_n_field_elements c (2 * M2 + 1)) 0%N)) (H0 (TT j) (nth k (get_first_n_field_elements c (2 * M2 + 1)) 0%N)))) (xsum rs) = error I c rs s t k).
        { unfold error. fold (gsum M1 (fun j => gmul c (nth j rs 0%N) (gadd (gmul c (lift c (nth (j + M1 * k) s 0%N)) (lift c (nth (j + M1 * k) t 0%N))) 1%N))).
          rewrite (list_map_nth' rs M1 0%N Lr) at 1. fold (gsum M1 (fun j => nth j rs 0%N)). unfold gadd at 1. rewrite <- gsum_add. apply gsum_ext. intros j Hj.
          destruct (HS' j Hj) as (_ & _ & VS & _). destruct (HT' j Hj) as (_ & _ & VT & _). rewrite VS, VT by exact Hk.
          assert (E1 : E (nth j rs 0%N)) by (apply (E_nth lam c Hc); exact Er).
          rewrite (g_distr_r lam c Hc) by (exact E1 || apply (E_mul lam c Hc) || apply (E_1 lam c Hc)). rewrite (g_mul_1_r lam c Hc) by exact E1. rewrite (g_assoc lam c Hc) by (try apply EL; assumption). reflexivity. }
        rewrite <- X. unfold gadd. rewrite <- N.lxor_assoc, N.lxor_nilpotent. apply N.lxor_0_l.
      * intros k Hk. unfold gadd. rewrite (N.lxor_comm (H0 P0 _)), <- N.lxor_assoc, N.lxor_nilpotent. symmetry. apply N.lxor_0_l.
    + intros y Hy. rewrite VP by exact Hy. unfold gadd. unfold gsum. rewrite <- N.lxor_assoc, N.lxor_nilpotent. symmetry. apply N.lxor_0_l.
  - exists k0. split; [exact Hk0|]. rewrite VQ1 by exact Hk0. exact B.
  - apply VQ2. exact HR.
Qed.
End Sound.
Lemma all_challenges I c : regular I -> init_extension_field (lambda I) = Ok c -> m2 I <= field_size I /\
  (exists l, NoDup l /\ (forall rss, In rss l <-> coef_challenge I rss) /\ length l = (field_size I ^ m1 I) ^ num_rounds I) /\
  (exists l, NoDup l /\ (forall Rs, In Rs l <-> point_challenge I c Rs) /\ length l = num_points I ^ num_rounds I) /\
  (exists l, NoDup l /\ (forall ps, In ps l <-> party_challenge I ps) /\ length l = num_parties I ^ num_rounds I).
Proof.
  intros HB Hc. destruct (W2_length I c HB Hc) as [LE L2]. split; [exact LE|].
  assert (G : forall (A : Type) (W : list A) (Q : A -> Prop), NoDup W -> (forall a, In a W <-> Q a) -> exists l, NoDup l /\ (forall t, In t l <-> length t = num_rounds I /\ Forall Q t) /\ length l = length W ^ num_rounds I).
  { intros A W Q ND IN. exists (tuples W (num_rounds I)). split; [apply NoDup_tuples; exact ND|]. split; [|apply length_tuples]. intros t. rewrite in_tuples. split; intros [L Fa]; split; try exact L; rewrite Forall_forall in *; intros a Ha; apply IN; apply Fa; exact Ha. }
  split; [|split].
  - rewrite <- (W1_length I). apply (G _ (W1 I) (fun rs => length rs = m1 I /\ Forall (elt (lambda I)) rs)); [apply W1_nodup|intros rs; apply W1_in].
  - rewrite <- L2. apply (G _ (W2 I c)); [apply W2_nodup|intros x; apply W2_in].
  - destruct (G _ (seq 0 (num_parties I)) (fun p => p < num_parties I)) as (l & A1 & A2 & A3); [apply seq_NoDup|intros p; rewrite in_seq; lia|]. exists l. split; [exact A1|]. split; [exact A2|]. rewrite A3, seq_length. reflexivity.
Qed.
Lemma nth_rep {A} (x d : A) m k : k < m -> nth k (repeat x m) d = x.
Proof. revert k. induction m as [|m IH]; intros [|k] H; cbn; try lia; [reflexivity|apply IH; lia]. Qed.
Lemma sound_run : exists c, regular I1 /\ init_extension_field (lambda I1) = Ok c /\
  let s := 0%N :: repeat 1%N (num_sboxes (i_aes I1) - 1) in let t := repeat 1%N (num_sboxes (i_aes I1)) in
  let zs := map (fun i => 2000 + N.of_nat i)%N (seq 0 (m2 I1 + 1)) in
  (~ right_pair s t 0 /\ forall i, i < num_sboxes (i_aes I1) -> i <> 0 -> right_pair s t i) /\
  bad_coefs I1 c (repeat 0%N (m1 I1)) s t /\ ~ bad_coefs I1 c (repeat 1%N (m1 I1)) s t /\
  (exists ds, forall R, In R zs -> bad_point I1 c (repeat 1%N (m1 I1)) s t (fun _ => 0%N) ds R) /\
  let V := mkProver (fun _ => s) (fun _ => t) (fun _ _ => 0%N) (fun _ _ _ => 0%N) (fun _ _ _ => 5) in
  let rss := repeat (repeat 0%N (m1 I1)) 10 ++ repeat (repeat 1%N (m1 I1)) (num_rounds I1 - 10) in
  let Rs := repeat 2000%N (num_rounds I1) in let ps := repeat 7 10 ++ repeat 5 (num_rounds I1 - 10) in
  coef_challenge I1 rss /\ point_challenge I1 c Rs /\ party_challenge I1 ps /\ forall e, e < num_rounds I1 -> passes I1 c V rss Rs ps e.
Proof.
  destruct I1_field as [c Ec]. exists c. pose proof (builtin_regular _ I1_builtin) as RG. split; [exact RG|]. split; [exact Ec|]. intros s t zs.
  assert (Bs : is_bytes s) by (apply Forall_forall; intros x [<-|Hx]; [reflexivity|]; apply repeat_spec in Hx; subst x; reflexivity).
  assert (Bt : is_bytes t) by (apply Forall_forall; intros x Hx; apply repeat_spec in Hx; subst x; reflexivity).
  assert (P0 : ~ right_pair s t 0) by (unfold right_pair; vm_compute; discriminate).
  assert (PR : forall i, i < num_sboxes (i_aes I1) -> i <> 0 -> right_pair s t i).
  { intros [|i] Hi Ni; [congruence|]. unfold right_pair, s, t. cbn [nth]. rewrite nth_rep by lia. change (fmul 1 (nth (S i) (repeat 1%N (num_sboxes (i_aes I1))) 0%N) = 1%N). rewrite nth_rep by exact Hi. reflexivity. }
  assert (E01 : forall v, (v < 256)%N -> forall m, Forall (elt (lambda I1)) (repeat v m)) by (intros v Hv m; apply Forall_forall; intros x Hx; apply repeat_spec in Hx; subst x; change (v < 2 ^ (8 * 4))%N; change (2 ^ (8 * 4))%N with 4294967296%N; lia).
  pose proof (M1_pos I1 c RG Ec) as M1p. assert (S0 : 0 < num_sboxes (i_aes I1)) by (change (num_sboxes (i_aes I1)) with 200; lia).
  assert (OW : forall v, (v < 256)%N -> (bad_coefs I1 c (repeat v (m1 I1)) s t <-> v = 0%N)).
  { intros v Hv. rewrite (one_wrong I1 c RG Ec s t 0 (repeat v (m1 I1)) Bs Bt S0 P0 PR (repeat_length _ _) (E01 v Hv _)). rewrite Nat.mod_0_l, nth_rep by lia. reflexivity. }
  assert (AL : forall i, i < 30 -> elt (lambda I1) (2000 + N.of_nat i)%N /\ ~ In (2000 + N.of_nat i)%N (get_first_n_field_elements c (m2 I1))).
  { intros i Hi. split; [change (2000 + N.of_nat i < 2 ^ (8 * 4))%N; change (2 ^ (8 * 4))%N with 4294967296%N; lia|].
    assert (X : forallb (fun i => negb (existsb (N.eqb (2000 + N.of_nat i)) (get_first_n_field_elements c (m2 I1)))) (seq 0 30) = true) by (injection Ec as <-; vm_compute; reflexivity).
    rewrite forallb_forall in X. specialize (X i ltac:(apply in_seq; lia)). apply negb_true_iff, not_true_iff_false in X. intros Q. apply X. apply existsb_exists. exists (2000 + N.of_nat i)%N. split; [exact Q|apply N.eqb_refl]. }
  assert (NB : ~ bad_coefs I1 c (repeat 1%N (m1 I1)) s t) by (rewrite (OW 1%N ltac:(reflexivity)); discriminate).
  split; [split; assumption|]. split; [apply (OW 0%N); reflexivity|]. split; [exact NB|]. split.
  { destruct (choosable I1 c RG Ec (repeat 1%N (m1 I1)) s t (fun _ => 0%N) zs (repeat_length _ _) (E01 1%N ltac:(reflexivity) _) Bs Bt) as (ds & _ & W).
    - intros _. reflexivity.
    - exists 0. split; assumption.
    - exact NB.
    - unfold zs. apply FinFun.Injective_map_NoDup; [intros x y Q; lia|apply seq_NoDup].
    - unfold zs. rewrite map_length, seq_length. reflexivity.
    - apply Forall_map, Forall_forall. intros i Hi. apply in_seq in Hi. apply AL. change (m2 I1) with 20 in Hi. lia.
    - exists ds. exact W. }
  intros V rss Rs ps. change (num_rounds I1) with 31 in *. split; [|split; [|split]].
  - split; [unfold rss; rewrite app_length, !repeat_length; reflexivity|]. apply Forall_forall. intros r Hr. apply in_app_or in Hr. destruct Hr as [Hr|Hr]; apply repeat_spec in Hr; subst r; (split; [apply repeat_length|apply E01; reflexivity]).
  - split; [apply repeat_length|]. apply Forall_forall. intros r Hr. apply repeat_spec in Hr. subst r. apply (AL 0). lia.
  - split; [unfold ps; rewrite app_length, !repeat_length; reflexivity|]. apply Forall_forall. intros p Hp. change (num_parties I1) with 64. apply in_app_or in Hp. destruct Hp as [Hp|Hp]; apply repeat_spec in Hp; lia.
  - intros e He. unfold passes. destruct (le_lt_dec 10 e) as [G|G].
    + right. right. cbn [pv_guess V]. unfold ps. rewrite app_nth2, repeat_length by (rewrite repeat_length; exact G). apply nth_rep. lia.
    + left. cbn [pv_in pv_out V]. unfold rss. rewrite app_nth1, nth_rep by (rewrite ?repeat_length; exact G). apply (OW 0%N); reflexivity.
Qed.
