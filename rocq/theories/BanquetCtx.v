(** The inputs of the three commitment hashes, and what verification computes from a well-shaped signature. *)
From Coq Require Import Arith NArith List Bool Lia.
From Verif Require Import Prelude FieldModel FieldSpec FieldApi FieldLin PolyModel Instances HashModel TreeModel TreeSpec TreeApi TreeRev AesSpec AesModel AesBase AesApi AesShares BanquetModel ContainerModel ListSum BanquetHash BanquetPure BanquetVerify.
Import ListNotations.

Lemma to_bytes_len k e : length (to_bytes k e) = k.
Proof. unfold to_bytes. apply le_bytes_length. Qed.
Lemma bytes_eqb_eq a : forall b, bytes_eqb a b = true <-> a = b.
Proof.
  induction a; destruct b; cbn [bytes_eqb]; try (split; [discriminate|discriminate]); [split; reflexivity|].
  rewrite andb_true_iff, N.eqb_eq, IHa. split; [intros [-> ->]; reflexivity|intros X; injection X as -> ->; auto].
Qed.
Lemma read_all (a : bytes) k : length a = k -> read a 0 k = Ok a.
Proof. intros <-. rewrite read_ok by lia. unfold slice. cbn [skipn]. rewrite firstn_all. reflexivity. Qed.
Lemma memcmp_eq_ok (a b : bytes) k : length a = k -> length b = k -> memcmp_eq a b k = Ok (bytes_eqb a b).
Proof. intros A B. unfold memcmp_eq. rewrite !read_all by assumption. reflexivity. Qed.
Lemma concat_map_length {A} (f : nat -> list A) k m : (forall i, i < m -> length (f i) = k) -> length (concat (map f (seq 0 m))) = m * k.
Proof.
  intros Hf. assert (G : forall q, q <= m -> length (concat (map f (seq 0 q))) = q * k).
  { induction q; intros Hq; [reflexivity|]. rewrite seq_S, map_app, concat_app, app_length, IHq by lia. cbn [map concat Nat.add app length].
    rewrite app_nil_r, Hf by lia. lia. }
  apply G. lia.
Qed.

Section Ctx.
Variables (H : oracle) (I : instance) (c : fctx) (nk : nat).
Hypothesis OK : inst_any I c nk.
Let HI := io_field _ _ _ OK.
Notation E := (elt (lambda I)).
Notation ks := (key_size (i_aes I)).
Notation sb := (num_sboxes (i_aes I)).
Notation lam := (lambda I).
Notation n := (num_parties I).
Notation M1 := (m1 I).
Notation M2 := (m2 I).
Notation T := (num_rounds I).

(** *** what is hashed *)
Definition part1 (com bc : nat -> bytes) (kd td : bytes) : bytes := concat (map (fun p => com p ++ bc p) (seq 0 n)) ++ kd ++ td.
Definition part2 (ds : list N) : bytes := concat (map (fun k => to_bytes lam (nth k ds 0%N)) (seq 0 M2)).
Definition part3 (o : view) (v : nat -> view) : bytes :=
  to_bytes lam (v_c o) ++ concat (map (fun p => to_bytes lam (v_c (v p))) (seq 0 n)) ++
  concat (map (fun j => to_bytes lam (nth j (v_a o) 0%N) ++ to_bytes lam (nth j (v_b o) 0%N) ++
    concat (map (fun p => to_bytes lam (nth j (v_a (v p)) 0%N) ++ to_bytes lam (nth j (v_b (v p)) 0%N)) (seq 0 n))) (seq 0 M1)).
Definition ctx_of (prefix : N) (data : bytes) : hctx := mkCtx (digest_size I =? 32) ([prefix] ++ data) None.
Definition in1 (salt pk msg : bytes) (com bc : nat -> nat -> bytes) (kd td : nat -> bytes) : bytes :=
  salt ++ pk ++ msg ++ concat (map (fun r => part1 (com r) (bc r) (kd r) (td r)) (seq 0 T)).
Definition in2 (salt h1 : bytes) (ds : nat -> list N) : bytes := salt ++ h1 ++ concat (map (fun r => part2 (ds r)) (seq 0 T)).
Definition in3 (salt h2 : bytes) (o : nat -> view) (v : nat -> nat -> view) : bytes :=
  salt ++ h2 ++ concat (map (fun r => part3 (o r) (v r)) (seq 0 T)).
Definition hash_of (prefix : N) (data : bytes) : bytes := stream H (digest_size I =? 32) ([prefix] ++ data) 0 (digest_size I).

Lemma phase_1_ctx_ok salt pk msg com bc kd td :
  phase_1_ctx I salt pk msg (map (fun r => map (com r) (seq 0 n)) (seq 0 T)) (map kd (seq 0 T)) (map td (seq 0 T))
    (map (fun r => map (bc r) (seq 0 n)) (seq 0 T)) = Ok (ctx_of HASH_PREFIX_1 (in1 salt pk msg com bc kd td)).
Proof.
  unfold phase_1_ctx. rewrite (mapM_seq _ (fun r => part1 (com r) (bc r) (kd r) (td r))).
  - cbn [bind]. unfold ctx_of, in1, hash_init_prefix, hash_init, hash_update. cbn [h_v h_in h_off]. do 2 f_equal. cbn [app]. rewrite <- !app_assoc. reflexivity.
  - intros r Hr. rewrite !get_map_seq by exact Hr. cbn [bind]. rewrite (mapM_seq _ (fun p => com r p ++ bc r p)).
    + cbn [bind]. reflexivity.
    + intros p Hp. rewrite !get_map_seq by exact Hp. reflexivity.
Qed.
Lemma elem_bytes_ok e : elem_bytes I c e = Ok (to_bytes lam e).
Proof. unfold elem_bytes. rewrite (api_size lam c HI). apply read_all. apply to_bytes_len. Qed.
Lemma phase_2_ctx_ok salt h1 ds : (forall r, r < T -> M2 <= length (ds r)) ->
  phase_2_ctx I c salt h1 (map ds (seq 0 T)) = Ok (ctx_of HASH_PREFIX_2 (in2 salt h1 ds)).
Proof.
  intros Hd. unfold phase_2_ctx. rewrite (mapM_seq _ (fun r => part2 (ds r))).
  - cbn [bind]. unfold ctx_of, in2, hash_init_prefix, hash_init, hash_update. cbn [h_v h_in h_off]. do 2 f_equal. cbn [app]. rewrite <- !app_assoc. reflexivity.
  - intros r Hr. rewrite get_map_seq by exact Hr. cbn [bind]. rewrite (mapM_seq _ (fun k => to_bytes lam (nth k (ds r) 0%N))); [reflexivity|].
    intros k Hk. rewrite (get_ok (ds r) k 0%N) by (specialize (Hd r Hr); lia). cbn [bind]. apply elem_bytes_ok.
Qed.
Lemma phase_2_commitment_ok salt h1 ds : (forall r, r < T -> M2 <= length (ds r)) ->
  phase_2_commitment H I c salt h1 (map ds (seq 0 T)) = Ok (hash_of HASH_PREFIX_2 (in2 salt h1 ds)).
Proof. intros Hd. unfold phase_2_commitment. rewrite phase_2_ctx_ok by exact Hd. reflexivity. Qed.
Definition view_shape (v : view) : Prop := length (v_a v) = M1 /\ length (v_b v) = M1.
Lemma phase_3_ctx_ok salt h2 o v : (forall r, r < T -> view_shape (o r)) -> (forall r p, r < T -> p < n -> view_shape (v r p)) ->
  phase_3_ctx I c salt h2 (map o (seq 0 T)) (map (fun r => map (v r) (seq 0 n)) (seq 0 T)) = Ok (ctx_of HASH_PREFIX_3 (in3 salt h2 o v)).
Proof.
  intros Ho Hv. unfold phase_3_ctx. rewrite (mapM_seq _ (fun r => part3 (o r) (v r))).
  - cbn [bind]. unfold ctx_of, in3, hash_init_prefix, hash_init, hash_update. cbn [h_v h_in h_off]. do 2 f_equal. cbn [app]. rewrite <- !app_assoc. reflexivity.
  - intros r Hr. rewrite !get_map_seq by exact Hr. cbn [bind]. rewrite elem_bytes_ok. cbn [bind].
    rewrite (mapM_seq _ (fun p => to_bytes lam (v_c (v r p)))) by (intros p Hp; rewrite get_map_seq by exact Hp; apply elem_bytes_ok). cbn [bind].
    rewrite (mapM_seq _ (fun j => to_bytes lam (nth j (v_a (o r)) 0%N) ++ to_bytes lam (nth j (v_b (o r)) 0%N) ++
      concat (map (fun p => to_bytes lam (nth j (v_a (v r p)) 0%N) ++ to_bytes lam (nth j (v_b (v r p)) 0%N)) (seq 0 n)))); [reflexivity|].
    intros j Hj. destruct (Ho r Hr) as [A B]. rewrite (get_ok (v_a (o r)) j 0%N) by lia. cbn [bind]. rewrite elem_bytes_ok. cbn [bind].
    rewrite (get_ok (v_b (o r)) j 0%N) by lia. cbn [bind]. rewrite elem_bytes_ok. cbn [bind].
    rewrite (mapM_seq _ (fun p => to_bytes lam (nth j (v_a (v r p)) 0%N) ++ to_bytes lam (nth j (v_b (v r p)) 0%N))); [reflexivity|].
    intros p Hp. destruct (Hv r p Hr Hp) as [C D]. rewrite get_map_seq by exact Hp. cbn [bind].
    rewrite (get_ok (v_a (v r p)) j 0%N) by lia. cbn [bind]. rewrite elem_bytes_ok. cbn [bind].
    rewrite (get_ok (v_b (v r p)) j 0%N) by lia. cbn [bind]. rewrite elem_bytes_ok. reflexivity.
Qed.

(** *** verification of a well-shaped signature *)
(** what the verifier recomputes in one repetition, from the seeds it gets from the revealed nodes *)
Record vin : Type := mkVin { vi_leafs : nat -> bytes; vi_rs : list N; vi_R : N; vi_m : nat; vi_pf : rep_proof }.
Definition w_com (salt : bytes) (r : nat) (x : vin) (p : nat) : bytes :=
  if p =? vi_m x then p_C (vi_pf x) else commit_to_party_seed H I (vi_leafs x p) salt r p.
Definition w_tape (salt : bytes) (r : nat) (x : vin) (p : nat) : bytes := generate_tape H I salt r p (vi_leafs x p).
Definition w_bcast (salt pt ct : bytes) (r : nat) (x : vin) : nat -> bytes :=
  v_bcast I nk pt ct (p_sk_delta (vi_pf x)) (p_t_delta (vi_pf x)) (vi_m x) (w_tape salt r x).
Definition w_s (salt pt : bytes) (r : nat) (x : vin) (p : nat) : bytes :=
  snd (v_out I nk pt (p_sk_delta (vi_pf x)) (p_t_delta (vi_pf x)) (w_tape salt r x) p).
Definition w_t (salt : bytes) (r : nat) (x : vin) : nat -> bytes := v_ts I (p_t_delta (vi_pf x)) (w_tape salt r x).
Definition w_open (x : vin) : view := ((p_S_at_R (vi_pf x), p_T_at_R (vi_pf x)), p_P_at_R (vi_pf x)).
Definition w_view (pre1 pre2 : list (list N)) (salt pt : bytes) (r : nat) (x : vin) : nat -> view :=
  v_views I c (fun k => lag c pre1 k (vi_R x)) (fun k => lag c pre2 k (vi_R x)) (vi_rs x) (p_P_delta (vi_pf x))
    (w_s salt pt r x) (w_t salt r x) (w_tape salt r x) (vi_m x) (w_open x).
Record vin_ok (salt : bytes) (r : nat) (x : vin) : Prop := mkVinOk {
  vo_shape : proof_shape I (vi_pf x);
  vo_rs : length (vi_rs x) = M1; vo_rsE : Forall E (vi_rs x); vo_R : E (vi_R x);
  vo_m : vi_m x < n; vo_rm : snd (p_reveal (vi_pf x)) = vi_m x;
  vo_tree : exists t, seed_tree_rev H salt r (p_reveal (vi_pf x)) n = Ok t /\
    forall p, p < n -> get_leaf t p = Ok (if p =? vi_m x then None else Some (vi_leafs x p));
  vo_leafs : forall p, p < n -> length (vi_leafs x p) = seed_size I;
  vo_dummy : vi_leafs x (vi_m x) = zeros (seed_size I) }.
Lemma w_tape_ok salt r x p : tape_ok I (w_tape salt r x p).
Proof. apply tape_str. Qed.

Lemma v_views_shape l1 l2 rs ds s t tapes m o p : view_shape (v_views I c l1 l2 rs ds s t tapes m o p).
Proof.
  unfold v_views, known, view_of, view_shape, v_a, v_b. destruct (p =? m); cbn [fst snd]; rewrite !length_map_seq; split; reflexivity.
Qed.

Lemma verify_contexts_ok pre1 pre2 fuel garb pk pt ct sig msg (D : nat -> vin) :
  lagr lam c (xs1 I c) pre1 -> lagr lam c (xs2 I c) pre2 ->
  read pk 0 (pt_size I) = Ok pt -> read pk (pt_size I) (pt_size I) = Ok ct -> is_bytes pt ->
  s_proofs sig = map (fun r => vi_pf (D r)) (seq 0 T) -> (forall r, r < T -> vin_ok (s_salt sig) r (D r)) ->
  phase_1_expand H I c (s_h1 sig) = Ok (map (fun r => vi_rs (D r)) (seq 0 T)) ->
  phase_2_expand H I c fuel (hash_of HASH_PREFIX_2 (in2 (s_salt sig) (s_h1 sig) (fun r => p_P_delta (vi_pf (D r))))) (get_first_n_field_elements c M2) =
    Ok (map (fun r => vi_R (D r)) (seq 0 T)) ->
  phase_3_expand H I fuel garb (s_h3 sig) = Ok (map (fun r => vi_m (D r)) (seq 0 T)) ->
  verify_contexts H I c fuel garb pk sig msg = Ok
    (ctx_of HASH_PREFIX_1 (in1 (s_salt sig) pk msg (fun r => w_com (s_salt sig) r (D r)) (fun r => w_bcast (s_salt sig) pt ct r (D r))
       (fun r => p_sk_delta (vi_pf (D r))) (fun r => p_t_delta (vi_pf (D r)))),
     ctx_of HASH_PREFIX_3 (in3 (s_salt sig) (hash_of HASH_PREFIX_2 (in2 (s_salt sig) (s_h1 sig) (fun r => p_P_delta (vi_pf (D r)))))
       (fun r => w_open (D r)) (fun r => w_view pre1 pre2 (s_salt sig) pt r (D r)))).
Proof.
  intros G1 G2 Ept Ect Bpt Epf HD E1 E2 E3. unfold verify_contexts. rewrite Ept. cbn [bind]. rewrite Ect. cbn [bind]. rewrite Epf.
  assert (Hpt : str (pt_size I) pt).
  { split; [|exact Bpt]. destruct (read_inv _ _ _ _ Ept) as [A ->]. apply slice_length. exact A. }
  assert (Hct : length ct = pt_size I). { destruct (read_inv _ _ _ _ Ect) as [A ->]. apply slice_length. exact A. }
  rewrite map_map. rewrite (phase_2_commitment_ok (s_salt sig) (s_h1 sig) (fun r => p_P_delta (vi_pf (D r)))).
  2:{ intros r Hr. pose proof (proj1 (ps_P _ _ (vo_shape _ _ _ (HD r Hr)))). lia. }
  cbn [bind]. rewrite E1. cbn [bind]. rewrite E2. cbn [bind]. rewrite E3. cbn [bind].
  rewrite (mapM_seq _ (fun r => (map (w_com (s_salt sig) r (D r)) (seq 0 n), map (w_tape (s_salt sig) r (D r)) (seq 0 n)))).
  2:{ intros r Hr. rewrite !get_map_seq by exact Hr. cbn [bind]. destruct (HD r Hr) as [S1 S2 S2' S3 S4 S5 (t & S6 & S7) S8 S9].
      rewrite (verify_setup_ok H I (s_salt sig) (vi_pf (D r)) r (vi_m (D r)) (vi_leafs (D r)) t); auto. apply (ps_C _ _ S1). }
  cbn [bind]. rewrite !map_map. cbn [fst snd].
  rewrite (mapM_seq _ (fun r => (map (w_s (s_salt sig) pt r (D r)) (seq 0 n), map (w_t (s_salt sig) r (D r)) (seq 0 n),
    map (w_bcast (s_salt sig) pt ct r (D r)) (seq 0 n)))).
  2:{ intros r Hr. rewrite !get_map_seq by exact Hr. cbn [bind]. destruct (HD r Hr) as [S1 S2 S2' S3 S4 S5 _ S8 S9].
      apply (verify_phase1_ok I c nk OK); auto; try apply S1. intros p Hp. apply w_tape_ok. }
  cbn [bind]. fold (xs1 I c). fold (xs2 I c). rewrite (lg_pre _ _ _ _ G1). cbn [bind]. rewrite (lg_pre _ _ _ _ G2). cbn [bind].
  rewrite (mapM_seq _ (fun r => (map (fun p => if p =? vi_m (D r) then None else
      Some (v_pts I c (vi_rs (D r)) (w_s (s_salt sig) pt r (D r)) (w_t (s_salt sig) r (D r)) (w_tape (s_salt sig) r (D r)) p)) (seq 0 n),
    map (fun p => if p =? vi_m (D r) then [] else v_P I (vi_rs (D r)) (p_P_delta (vi_pf (D r))) (w_tape (s_salt sig) r (D r)) p) (seq 0 n)))).
  2:{ intros r Hr. rewrite !get_map_seq by exact Hr. cbn [bind fst snd]. destruct (HD r Hr) as [S1 S2 S2' S3 S4 S5 _ S8 S9].
      apply (verify_phase3_ok I c nk OK); auto.
      - apply (ps_P _ _ S1).
      - intros p Hp. apply w_tape_ok.
      - intros p Hp. apply (v_out_str I c nk OK); auto; try apply S1. apply w_tape_ok.
      - intros p Hp. apply v_ts_str; [apply S1|apply w_tape_ok]. }
  cbn [bind].
  rewrite (mapM_seq _ (fun r => (w_open (D r), map (w_view pre1 pre2 (s_salt sig) pt r (D r)) (seq 0 n)))).
  2:{ intros r Hr. rewrite !get_map_seq by exact Hr. cbn [bind]. destruct (HD r Hr) as [S1 S2 S2' S3 S4 S5 _ S8 S9].
      apply (verify_phase5_ok I c nk OK); auto; [apply (ps_S _ _ S1)|apply (ps_T _ _ S1)]. }
  cbn [bind]. rewrite !map_map. cbn [fst snd].
  rewrite (phase_1_ctx_ok (s_salt sig) pk msg (fun r => w_com (s_salt sig) r (D r)) (fun r => w_bcast (s_salt sig) pt ct r (D r))
    (fun r => p_sk_delta (vi_pf (D r))) (fun r => p_t_delta (vi_pf (D r)))). cbn [bind].
  rewrite (phase_3_ctx_ok (s_salt sig) _ (fun r => w_open (D r)) (fun r => w_view pre1 pre2 (s_salt sig) pt r (D r))).
  - reflexivity.
  - intros r Hr. destruct (HD r Hr) as [S1 _ _ _ _ _ _ _ _]. split; [apply (ps_S _ _ S1)|apply (ps_T _ _ S1)].
  - intros r p Hr Hp. apply v_views_shape.
Qed.

(** the verdict *)
Definition rel_holds (x : vin) : bool :=
  N.eqb (gsum M1 (fun j => gmul c (nth j (p_S_at_R (vi_pf x)) 0%N) (nth j (p_T_at_R (vi_pf x)) 0%N))) (p_P_at_R (vi_pf x)).
Lemma verify_relations_ok (D : nat -> vin) : (forall r, r < T -> length (p_S_at_R (vi_pf (D r))) = M1 /\ length (p_T_at_R (vi_pf (D r))) = M1) ->
  verify_relations I c (map (fun r => vi_pf (D r)) (seq 0 T)) (seq 0 T) = Ok (forallb (fun r => rel_holds (D r)) (seq 0 T)).
Proof.
  intros Hs. assert (G : forall k s, s + k <= T -> verify_relations I c (map (fun r => vi_pf (D r)) (seq 0 T)) (seq s k) = Ok (forallb (fun r => rel_holds (D r)) (seq s k))).
  { induction k; intros s Hk; [reflexivity|]. cbn [seq verify_relations forallb]. rewrite get_map_seq by lia. cbn [bind]. unfold verify_relation.
    destruct (Hs s ltac:(lia)) as [A B]. rewrite (accumulate_ok I c) by assumption. cbn [bind]. unfold rel_holds at 1.
    destruct (N.eqb _ _); [apply IHk; lia|reflexivity]. }
  apply G. lia.
Qed.
Lemma verify_body_ok pre1 pre2 fuel garb pk pt ct sig msg (D : nat -> vin) :
  lagr lam c (xs1 I c) pre1 -> lagr lam c (xs2 I c) pre2 ->
  read pk 0 (pt_size I) = Ok pt -> read pk (pt_size I) (pt_size I) = Ok ct -> is_bytes pt ->
  s_proofs sig = map (fun r => vi_pf (D r)) (seq 0 T) -> (forall r, r < T -> vin_ok (s_salt sig) r (D r)) ->
  length (s_h1 sig) = digest_size I -> length (s_h3 sig) = digest_size I ->
  phase_1_expand H I c (s_h1 sig) = Ok (map (fun r => vi_rs (D r)) (seq 0 T)) ->
  phase_2_expand H I c fuel (hash_of HASH_PREFIX_2 (in2 (s_salt sig) (s_h1 sig) (fun r => p_P_delta (vi_pf (D r))))) (get_first_n_field_elements c M2) =
    Ok (map (fun r => vi_R (D r)) (seq 0 T)) ->
  phase_3_expand H I fuel garb (s_h3 sig) = Ok (map (fun r => vi_m (D r)) (seq 0 T)) ->
  verify_body H I c fuel garb pk sig msg = Ok
    (bytes_eqb (hash_of HASH_PREFIX_1 (in1 (s_salt sig) pk msg (fun r => w_com (s_salt sig) r (D r)) (fun r => w_bcast (s_salt sig) pt ct r (D r))
       (fun r => p_sk_delta (vi_pf (D r))) (fun r => p_t_delta (vi_pf (D r))))) (s_h1 sig) &&
     bytes_eqb (hash_of HASH_PREFIX_3 (in3 (s_salt sig) (hash_of HASH_PREFIX_2 (in2 (s_salt sig) (s_h1 sig) (fun r => p_P_delta (vi_pf (D r)))))
       (fun r => w_open (D r)) (fun r => w_view pre1 pre2 (s_salt sig) pt r (D r)))) (s_h3 sig) &&
     forallb (fun r => rel_holds (D r)) (seq 0 T)).
Proof.
  intros G1 G2 Ept Ect Bpt Epf HD L1 L3 E1 E2 E3. unfold verify_body.
  rewrite (verify_contexts_ok pre1 pre2 fuel garb pk pt ct sig msg D) by assumption. cbn [bind]. unfold hash_squeeze, hash_final, ctx_of. cbn [fst h_v h_in h_off].
  repeat match goal with |- context [stream H (digest_size I =? 32) ([?p] ++ ?x) 0 (digest_size I)] =>
    change (stream H (digest_size I =? 32) ([p] ++ x) 0 (digest_size I)) with (hash_of p x) end.
  assert (LH : forall p x, length (hash_of p x) = digest_size I) by (intros; apply stream_length). rewrite !LH.
  rewrite memcmp_eq_ok by auto. cbn [bind]. destruct (bytes_eqb _ (s_h1 sig)); cbn [negb andb]; [|reflexivity].
  rewrite memcmp_eq_ok by auto. cbn [bind]. destruct (bytes_eqb _ (s_h3 sig)); cbn [negb andb]; [|reflexivity].
  rewrite Epf. apply verify_relations_ok. intros r Hr. pose proof (vo_shape _ _ _ (HD r Hr)) as S. split; [apply (ps_S _ _ S)|apply (ps_T _ _ S)].
Qed.
End Ctx.
