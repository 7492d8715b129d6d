(** The hash-based parts of signing and verification: four-way hashing and challenge expansion. *)
From Coq Require Import Arith NArith List Bool Lia.
From Verif Require Import Prelude FieldModel FieldSpec FieldApi FieldLin PolyModel Instances HashModel TreeModel TreeSpec TreeApi BanquetModel ListSum AesShares.
Import ListNotations.

(** ** four-way hashing equals scalar hashing *)
Lemma commit4 H I s0 s1 s2 s3 salt rep p :
  length s0 = seed_size I -> length s1 = seed_size I -> length s2 = seed_size I -> length s3 = seed_size I ->
  commit_to_4_party_seeds H I s0 s1 s2 s3 salt rep p =
  Ok [commit_to_party_seed H I s0 salt rep p; commit_to_party_seed H I s1 salt rep (p + 1);
      commit_to_party_seed H I s2 salt rep (p + 2); commit_to_party_seed H I s3 salt rep (p + 3)].
Proof.
  intros L0 L1 L2 L3. unfold commit_to_4_party_seeds. cbn [mapM].
  rewrite !read_ok by lia. cbn [bind]. unfold slice. cbn [skipn].
  rewrite <- L0 at 1. rewrite firstn_all. rewrite <- L1 at 1. rewrite firstn_all. rewrite <- L2 at 1. rewrite firstn_all. rewrite <- L3 at 1. rewrite firstn_all.
  reflexivity.
Qed.
Lemma tapes4 H I s0 s1 s2 s3 salt rep p : length s1 = length s0 -> length s2 = length s0 -> length s3 = length s0 ->
  generate_4_tapes H I salt rep p s0 s1 s2 s3 =
  Ok [generate_tape H I salt rep p s0; generate_tape H I salt rep (p + 1) s1; generate_tape H I salt rep (p + 2) s2; generate_tape H I salt rep (p + 3) s3].
Proof.
  intros L1 L2 L3. unfold generate_4_tapes. cbn [mapM].
  rewrite !read_ok by lia. cbn [bind]. unfold slice. cbn [skipn].
  rewrite firstn_all. rewrite <- L1 at 2. rewrite firstn_all. rewrite <- L2 at 2. rewrite firstn_all. rewrite <- L3 at 2. rewrite firstn_all.
  unfold generate_tape. rewrite L1, L2, L3. reflexivity.
Qed.
Lemma write_mid (a b d x : bytes) : length x = length b -> write_at (a ++ b ++ d) (length a) x = Ok (a ++ x ++ d).
Proof.
  intros L. unfold write_at. rewrite !app_length.
  destruct (Nat.leb_spec (length a + length x) (length a + (length b + length d))); [|lia].
  rewrite firstn_app, firstn_all, Nat.sub_diag, firstn_O, app_nil_r. do 3 f_equal.
  rewrite L, app_assoc. rewrite skipn_app, skipn_all2 by (rewrite app_length; lia). rewrite app_length, Nat.sub_diag. reflexivity.
Qed.
Lemma write_mid' (m a b d x : bytes) o : m = a ++ b ++ d -> o = length a -> length x = length b -> write_at m o x = Ok (a ++ x ++ d).
Proof. intros -> -> L. apply write_mid. exact L. Qed.
Lemma read_mid (m a b d : bytes) o n : m = a ++ b ++ d -> o = length a -> n = length b -> read m o n = Ok b.
Proof.
  intros -> -> ->. rewrite read_ok by (rewrite !app_length; lia). f_equal. unfold slice.
  rewrite skipn_app, skipn_all, Nat.sub_diag. cbn [app skipn]. rewrite firstn_app, firstn_all, Nat.sub_diag, firstn_O. apply app_nil_r.
Qed.
(** expanding a seed s that lies in front of its output buffer *)
Lemma expand1_eq H salt rep s n : length s <= 32 ->
  expand_seed H salt rep (s ++ zeros (2 * length s), []) (SData 0 (length s)) n (SData (length s) (2 * length s)) =
  Ok (s ++ child_seed H salt rep s n false ++ child_seed H salt rep s n true, []).
Proof.
  intros Hs. unfold expand_seed. cbn [span_size span_read fst].
  rewrite (read_mid _ [] s (zeros (2 * length s))) by reflexivity. cbn [bind].
  change (hash_squeeze H) with (hash_squeeze H). unfold hash_squeeze at 1. cbn [span_write fst snd h_v h_in h_off hash_final hash_update_u16 hash_update hash_init_prefix hash_init].
  assert (Z : zeros (2 * length s) = zeros (length s) ++ zeros (length s)).
  { unfold zeros. rewrite <- repeat_app. f_equal. lia. }
  rewrite (write_mid' _ s (zeros (length s)) (zeros (length s))); [|rewrite Z; reflexivity|lia|rewrite stream_length; unfold zeros; rewrite repeat_length; reflexivity].
  cbn [bind]. rewrite Nat.eqb_refl. unfold hash_squeeze. cbn [h_v h_in h_off fst snd].
  rewrite (write_mid' _ (s ++ stream H (length s * 2 =? 32) (((((([] ++ [HASH_PREFIX_1]) ++ s) ++ salt) ++ le16 rep) ++ le16 n)) 0 (length s)) (zeros (length s)) []).
  - cbn [bind]. unfold child_seed. rewrite !(Nat.mul_comm 2 (length s)). rewrite !app_nil_r. cbn [app]. rewrite <- !app_assoc. reflexivity.
  - rewrite !app_nil_r, <- !app_assoc. reflexivity.
  - rewrite app_length, stream_length. reflexivity.
  - rewrite stream_length. unfold zeros. rewrite repeat_length. reflexivity.
Qed.

(** ** four seeds expanded at once; the memory is a list of blocks of [ss] bytes *)
Lemma read_block ss (bl : list bytes) k : Forall (fun b : bytes => length b = ss) bl -> k < length bl -> read (concat bl) (k * ss) ss = Ok (nth k bl []).
Proof.
  intros Hb Hk. destruct (nth_split bl [] Hk) as (a & d & E & L). set (b := nth k bl []) in *. clearbody b. subst bl.
  apply Forall_app in Hb. destruct Hb as [Ha Hd]. inversion Hd; subst.
  rewrite concat_app. cbn [concat]. apply (read_mid _ (concat a) b (concat d)); auto.
  clear -Ha. induction Ha; [reflexivity|]. cbn [length concat Nat.mul]. rewrite app_length. congruence.
Qed.
Lemma write_block ss (bl : list bytes) k x : Forall (fun b : bytes => length b = ss) bl -> k < length bl -> length x = ss ->
  write_at (concat bl) (k * ss) x = Ok (concat (upd bl k x)).
Proof.
  intros Hb Hk Lx. destruct (nth_split bl [] Hk) as (a & d & E & L). set (b := nth k bl []) in *. clearbody b. subst bl.
  apply Forall_app in Hb. destruct Hb as [Ha Hd]. inversion Hd; subst.
  rewrite concat_app. cbn [concat]. rewrite (write_mid' _ (concat a) b (concat d)); auto.
  - f_equal. replace (upd (a ++ b :: d) (length a) x) with (a ++ x :: d); [rewrite concat_app; reflexivity|].
    clear. induction a as [|y a IH]; [reflexivity|]. cbn [app upd length]. f_equal. exact IH.
  - clear -Ha. induction Ha; [reflexivity|]. cbn [length concat Nat.mul]. rewrite app_length. congruence.
Qed.
Lemma expand4_eq H salt rep s0 s1 s2 s3 n ss : ss <= 32 -> length s0 = ss -> length s1 = ss -> length s2 = ss -> length s3 = ss ->
  let cs := fun s k right => child_seed H salt rep s k right in
  expand_seed_x4 H salt rep (concat ([s0; s1; s2; s3] ++ repeat (zeros ss) 8), [])
    [(SData (0 * ss) ss, SData (4 * ss) (2 * ss)); (SData (1 * ss) ss, SData (6 * ss) (2 * ss));
     (SData (2 * ss) ss, SData (8 * ss) (2 * ss)); (SData (3 * ss) ss, SData (10 * ss) (2 * ss))] n =
  Ok (concat [s0; s1; s2; s3; cs s0 n false; cs s0 n true; cs s1 (n + 1) false; cs s1 (n + 1) true;
              cs s2 (n + 2) false; cs s2 (n + 2) true; cs s3 (n + 3) false; cs s3 (n + 3) true], []).
Proof.
  intros Hs L0 L1 L2 L3 cs. unfold expand_seed_x4. cbn [span_size fst snd mapM span_read].
  assert (Z : length (zeros ss) = ss) by apply repeat_length.
  assert (B : Forall (fun b : bytes => length b = ss) ([s0; s1; s2; s3] ++ repeat (zeros ss) 8)).
  { cbn [app repeat]. repeat (constructor; [assumption|]). constructor. }
  rewrite !(read_block ss) by (exact B || (cbn; lia)). cbn [bind nth app repeat].
  cbn [app repeat] in B.
  unfold hash_update_x4_u16s, hash_update_x4_u16, hash_update_x4_1, hash_update_x4_4, hash_init_prefix_x4, hash_init_x4, hash_update_x4_1, hash_update_x4_4, hash_final_x4, hash_squeeze_x4.
  cbn [repeat combine map fst snd hash_squeeze hash_final foldM span_write h_v h_in h_off hash_update hash_init].
  set (st := fun s k (r : bool) => stream H (ss * 2 =? 32) (((((([] ++ [HASH_PREFIX_1]) ++ s) ++ salt) ++ le16 rep) ++ le16 k)) (if r then 0 + ss else 0) ss).
  assert (Lst : forall s k r, length (st s k r) = ss) by (intros; apply stream_length).
  assert (Est : forall s k r, length s = ss -> st s k r = child_seed H salt rep s k r).
  { intros s k r Ls. unfold st, child_seed. rewrite Ls, (Nat.mul_comm 2 ss). cbn [app]. rewrite <- !app_assoc. reflexivity. }
  repeat match goal with |- context [stream H ?v (((((?p ++ ?s) ++ salt) ++ le16 rep) ++ le16 ?k)) 0 ss] =>
     change (stream H v (((((p ++ s) ++ salt) ++ le16 rep) ++ le16 k)) 0 ss) with (st s k false)
   | |- context [stream H ?v (((((?p ++ ?s) ++ salt) ++ le16 rep) ++ le16 ?k)) (0 + ss) ss] =>
     change (stream H v (((((p ++ s) ++ salt) ++ le16 rep) ++ le16 k)) (0 + ss) ss) with (st s k true) end.
  rewrite !Nat.add_0_r, !Nat.eqb_refl.
  replace (4 * ss + ss) with (5 * ss) by lia. replace (6 * ss + ss) with (7 * ss) by lia.
  replace (8 * ss + ss) with (9 * ss) by lia. replace (10 * ss + ss) with (11 * ss) by lia.
  do 8 (rewrite (write_block ss); [cbn [upd bind fst snd]|repeat (constructor; [first [assumption|apply Lst]|]); constructor|cbn; lia|apply Lst]).
  unfold cs. rewrite !Est by assumption. reflexivity.
Qed.

(** ** challenges *)
Lemma land_low x m : (m < 256)%N -> N.land x m = N.land (x mod 256) m.
Proof.
  intros Hm. change 256%N with (2 ^ 8)%N. rewrite <- N.land_ones, <- N.land_assoc. f_equal.
  rewrite N.land_comm, N.land_ones. symmetry. apply N.mod_small. exact Hm.
Qed.
Lemma ceil_log2_le x k : 1 <= x -> (N.of_nat x <= 2 ^ N.of_nat k)%N -> k < 32 -> ceil_log2_nat x <= k.
Proof.
  intros Hx Hk K. unfold ceil_log2_nat. assert (L : (N.of_nat x < 2 ^ 32)%N).
  { eapply N.le_lt_trans; [exact Hk|]. apply N.pow_lt_mono_r; lia. }
  destruct (ceil_log2_spec (N.of_nat x)) as [_ A]; [lia|]. specialize (A (N.of_nat k) Hk). lia.
Qed.
Section Expand.
Variable H : oracle.
Variable I : instance.
Hypothesis HN1 : 1 <= num_parties I.

Lemma party_mask_small : (N.of_nat (num_parties I) <= 256)%N -> (party_mask I < 256)%N.
Proof.
  intros HN. unfold party_mask. pose proof (ceil_log2_le (num_parties I) 8 HN1 HN ltac:(lia)) as L.
  assert (2 ^ N.of_nat (ceil_log2_nat (num_parties I)) <= 2 ^ 8)%N by (apply N.pow_le_mono_r; lia).
  eapply N.le_lt_trans; [apply N.mod_le; discriminate|]. change (2 ^ 8)%N with 256%N in H0.
  assert (0 < 2 ^ N.of_nat (ceil_log2_nat (num_parties I)))%N by (apply N.neq_0_lt_0, N.pow_nonzero; discriminate). lia.
Qed.
Lemma squeeze_size_cases : (squeeze_size I = 2 /\ (256 < N.of_nat (num_parties I))%N) \/ (squeeze_size I = 1 /\ (N.of_nat (num_parties I) <= 256)%N).
Proof. unfold squeeze_size. destruct (Nat.ltb_spec 256 (num_parties I)); [left|right]; split; auto; lia. Qed.
Lemma sample_party_hi fuel hi hi' ctx : sample_party H I fuel hi ctx = sample_party H I fuel hi' ctx.
Proof.
  destruct fuel; [reflexivity|]. cbn [sample_party]. destruct (hash_squeeze H ctx (squeeze_size I)) as [b ctx'] eqn:E.
  destruct squeeze_size_cases as [[-> HN]|[S1 HN]]; [reflexivity|]. rewrite S1 in *. cbn [Nat.eqb].
  pose proof (party_mask_small HN) as M.
  rewrite (land_low (le_word b + 256 * hi)%N) by exact M. rewrite (land_low (le_word b + 256 * hi')%N) by exact M.
  rewrite !(N.mul_comm 256), !N.mod_add by discriminate. reflexivity.
Qed.
Lemma sample_parties_garb fuel garb garb' n : forall e e' ctx, sample_parties H I fuel garb e n ctx = sample_parties H I fuel garb' e' n ctx.
Proof.
  induction n; intros e e' ctx; [reflexivity|]. cbn [sample_parties]. rewrite (sample_party_hi fuel _ (garb' e' mod 256)%N).
  destruct (sample_party H I fuel (garb' e' mod 256)%N ctx) as [[p ctx']| | |]; cbn [bind]; [|reflexivity..]. rewrite (IHn (S e) (S e')). reflexivity.
Qed.
Lemma sample_party_outcome fuel : forall hi ctx, sample_party H I fuel hi ctx = OutOfFuel \/
  exists p ctx', sample_party H I fuel hi ctx = Ok (p, ctx') /\ p < num_parties I /\ forall extra, sample_party H I (fuel + extra) hi ctx = Ok (p, ctx').
Proof.
  induction fuel as [|f IH]; intros hi ctx; [left; reflexivity|]. cbn [sample_party Nat.add].
  destruct (hash_squeeze H ctx (squeeze_size I)) as [b ctx'].
  match goal with |- context [if ?c then _ else _] => destruct c eqn:E end; [apply IH|].
  right. eexists _, _. split; [reflexivity|]. split; [|reflexivity]. apply N.leb_gt in E. lia.
Qed.
Lemma sample_parties_outcome fuel garb n : forall e ctx, sample_parties H I fuel garb e n ctx = OutOfFuel \/
  exists l, sample_parties H I fuel garb e n ctx = Ok l /\ length l = n /\ Forall (fun p => p < num_parties I) l /\
    forall extra, sample_parties H I (fuel + extra) garb e n ctx = Ok l.
Proof.
  induction n; intros e ctx; [right; exists []; cbn; auto|]. cbn [sample_parties].
  destruct (sample_party_outcome fuel (garb e mod 256)%N ctx) as [->|(p & ctx' & -> & Hp & Hx)]; [left; reflexivity|]. cbn [bind].
  destruct (IHn (S e) ctx') as [->|(l & -> & L & Hl & Hy)]; [left; reflexivity|]. cbn [bind]. right. eexists. split; [reflexivity|].
  split; [cbn; congruence|]. split; [constructor; assumption|]. intros extra. rewrite Hx. cbn [bind]. rewrite Hy. reflexivity.
Qed.
Lemma phase_3_outcome fuel garb h3 : phase_3_expand H I fuel garb h3 = OutOfFuel \/
  exists l, phase_3_expand H I fuel garb h3 = Ok l /\ length l = num_rounds I /\ Forall (fun p => p < num_parties I) l /\
    forall extra, phase_3_expand H I (fuel + extra) garb h3 = Ok l.
Proof. apply sample_parties_outcome. Qed.
Lemma phase_3_garb fuel garb garb' h3 : phase_3_expand H I fuel garb h3 = phase_3_expand H I fuel garb' h3.
Proof. apply sample_parties_garb. Qed.

(** field challenges *)
Variable c : fctx.
Hypothesis HI : init_extension_field (lambda I) = Ok c.
Notation E := (elt (lambda I)).
Lemma elem_at_ok buf off : off + lambda I <= length buf -> elem_at c buf off = Ok (from_bytes (slice buf off (lambda I))).
Proof. intros L. unfold elem_at. rewrite (api_size _ _ HI). rewrite read_ok by exact L. reflexivity. Qed.
Lemma from_slice_elt buf off : is_bytes buf -> off + lambda I <= length buf -> E (from_bytes (slice buf off (lambda I))).
Proof. intros B L. apply (api_bytes _ _ HI); [apply is_bytes_slice; exact B|apply slice_length; exact L]. Qed.
Lemma squeeze_elems_ok n : forall ctx, exists xs ctx', squeeze_elems H I c n ctx = Ok (xs, ctx') /\ length xs = n /\ Forall E xs.
Proof.
  induction n; intros ctx; [exists [], ctx; cbn; auto|]. cbn [squeeze_elems]. destruct (hash_squeeze H ctx (lambda I)) as [b cb] eqn:Es. destruct (squeeze_shape _ _ _ _ _ Es) as [Lb Bb].
  rewrite elem_at_ok by lia. cbn [bind].
  match goal with |- context [squeeze_elems H I c n ?x] => destruct (IHn x) as (xs & ctx' & -> & L & F) end. cbn [bind].
  eexists _, _. split; [reflexivity|]. split; [cbn; congruence|]. constructor; [|exact F].
  apply from_slice_elt; [exact Bb|lia].
Qed.
Lemma squeeze_rows_ok t : forall ctx, exists rs, squeeze_rows H I c t ctx = Ok rs /\ length rs = t /\ Forall (fun r => length r = m1 I /\ Forall E r) rs.
Proof.
  induction t; intros ctx; [exists []; cbn; auto|]. cbn [squeeze_rows].
  destruct (squeeze_elems_ok (m1 I) ctx) as (xs & ctx' & -> & L & F). cbn [bind].
  destruct (IHt ctx') as (rs & -> & L' & F'). cbn [bind]. eexists. split; [reflexivity|]. split; [cbn; congruence|]. constructor; auto.
Qed.
Lemma phase_1_expand_ok h1 : exists rs, phase_1_expand H I c h1 = Ok rs /\ length rs = num_rounds I /\ Forall (fun r => length r = m1 I /\ Forall E r) rs.
Proof. apply squeeze_rows_ok. Qed.
Lemma existsb_N x l : existsb (N.eqb x) l = false <-> ~ In x l.
Proof.
  rewrite <- not_true_iff_false, existsb_exists. split; intros A B; apply A.
  - exists x. split; [exact B|apply N.eqb_refl].
  - destruct B as (y & By & Ey). apply N.eqb_eq in Ey. congruence.
Qed.
Lemma sample_R_outcome forb : length forb = m2 I -> forall fuel ctx, sample_R H I c fuel forb ctx = OutOfFuel \/
  exists x ctx', sample_R H I c fuel forb ctx = Ok (x, ctx') /\ E x /\ ~ In x forb /\ forall extra, sample_R H I c (fuel + extra) forb ctx = Ok (x, ctx').
Proof.
  intros Lf. induction fuel as [|f IH]; intros ctx; [left; reflexivity|]. cbn [sample_R Nat.add]. destruct (hash_squeeze H ctx (lambda I)) as [b cb] eqn:Es. destruct (squeeze_shape _ _ _ _ _ Es) as [Lb Bb].
  rewrite elem_at_ok by lia. cbn [bind].
  assert (RF : read forb 0 (m2 I) = Ok forb) by (rewrite read_ok by lia; unfold slice; cbn [skipn]; rewrite <- Lf, firstn_all; reflexivity).
  rewrite RF. cbn [bind].
  match goal with |- context [if ?b then _ else _] => destruct b eqn:Ex end; [apply IH|].
  right. eexists _, _. split; [reflexivity|]. split; [apply from_slice_elt; [exact Bb|lia]|].
  split; [apply existsb_N; exact Ex|reflexivity].
Qed.
Lemma sample_Rs_outcome forb fuel n : length forb = m2 I -> forall ctx, sample_Rs H I c fuel forb n ctx = OutOfFuel \/
  exists l, sample_Rs H I c fuel forb n ctx = Ok l /\ length l = n /\ Forall (fun x => E x /\ ~ In x forb) l /\
    forall extra, sample_Rs H I c (fuel + extra) forb n ctx = Ok l.
Proof.
  intros Lf. induction n; intros ctx; [right; exists []; cbn; auto|]. cbn [sample_Rs].
  destruct (sample_R_outcome forb Lf fuel ctx) as [->|(x & ctx' & -> & Hx & Hn & Hm)]; [left; reflexivity|]. cbn [bind].
  destruct (IHn ctx') as [->|(l & -> & L & Hl & Hy)]; [left; reflexivity|]. cbn [bind]. right. eexists. split; [reflexivity|].
  split; [cbn; congruence|]. split; [constructor; auto|]. intros extra. rewrite Hm. cbn [bind]. rewrite Hy. reflexivity.
Qed.
Lemma phase_2_outcome fuel h2 : (N.of_nat (m2 I) <= 21845)%N ->
  phase_2_expand H I c fuel h2 (get_first_n_field_elements c (m2 I)) = OutOfFuel \/
  exists l, phase_2_expand H I c fuel h2 (get_first_n_field_elements c (m2 I)) = Ok l /\ length l = num_rounds I /\
    Forall (fun x => E x /\ ~ In x (get_first_n_field_elements c (m2 I))) l /\
    forall extra, phase_2_expand H I c (fuel + extra) h2 (get_first_n_field_elements c (m2 I)) = Ok l.
Proof. intros Hm. apply sample_Rs_outcome. apply (api_points _ _ HI). exact Hm. Qed.
End Expand.
