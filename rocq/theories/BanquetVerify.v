(** The steps of verification on an arbitrary well-shaped proof of one repetition. *)
From Coq Require Import Arith NArith List Bool Lia.
From Verif Require Import Prelude FieldModel FieldSpec FieldApi FieldLin PolyModel Instances HashModel TreeModel TreeSpec TreeApi TreeRev AesModel AesApi AesShares BanquetModel ContainerModel ListSum BanquetHash BanquetPure.
Import ListNotations.

(** the sizes the parameter set prescribes for a repetition's proof *)
Record proof_shape (I : instance) (p : rep_proof) : Prop := mkShape {
  ps_entries : length (fst (p_reveal p)) = ceil_log2_nat (num_parties I);
  ps_entry : forall v : bytes, In v (fst (p_reveal p)) -> str (seed_size I) v;
  ps_C : str (digest_size I) (p_C p);
  ps_sk : str (key_size (i_aes I)) (p_sk_delta p);
  ps_t : str (num_sboxes (i_aes I)) (p_t_delta p);
  ps_P : length (p_P_delta p) = m2 I + 1 /\ Forall (elt (lambda I)) (p_P_delta p);
  ps_PR : elt (lambda I) (p_P_at_R p);
  ps_S : length (p_S_at_R p) = m1 I /\ Forall (elt (lambda I)) (p_S_at_R p);
  ps_T : length (p_T_at_R p) = m1 I /\ Forall (elt (lambda I)) (p_T_at_R p) }.

Section Verify.
Variables (H : oracle) (I : instance) (c : fctx) (nk : nat).
Hypothesis OK : inst_any I c nk.
Let HI := io_field _ _ _ OK.
Notation E := (elt (lambda I)).
Notation ks := (key_size (i_aes I)).
Notation sb := (num_sboxes (i_aes I)).
Notation lam := (lambda I).
Notation n := (num_parties I).
Notation M1 := (m1 I).
Notation M2 := (m2 I).

Lemma commit_length seed salt rep p : length (commit_to_party_seed H I seed salt rep p) = digest_size I.
Proof. apply stream_length. Qed.
Lemma commit_str seed salt rep p : str (digest_size I) (commit_to_party_seed H I seed salt rep p).
Proof. split; [apply stream_length|apply stream_bytes]. Qed.
Lemma tape_str salt rep p seed : tape_ok I (generate_tape H I salt rep p seed).
Proof. split; [apply stream_length|apply stream_bytes]. Qed.

(** *** seeds, commitments, tapes *)
Lemma verify_setup_ok salt proof rep m leafs t : m < n -> snd (p_reveal proof) = m -> length (p_C proof) = digest_size I ->
  seed_tree_rev H salt rep (p_reveal proof) n = Ok t ->
  (forall p, p < n -> get_leaf t p = Ok (if p =? m then None else Some (leafs p))) -> (forall p, p < n -> length (leafs p) = seed_size I) ->
  leafs m = zeros (seed_size I) ->
  verify_setup H I salt proof rep m =
  Ok (map (fun p => if p =? m then p_C proof else commit_to_party_seed H I (leafs p) salt rep p) (seq 0 n),
      map (fun p => generate_tape H I salt rep p (leafs p)) (seq 0 n)).
Proof.
  intros Hm Em Lc Et Hl Ll Lm. unfold verify_setup. rewrite Em, Nat.eqb_refl. cbn [negb]. rewrite Et. cbn [bind]. cbv zeta.
  assert (Hlo : forall p, p < n -> (do o <- get_leaf t p; Ok (value_or o (zeros (seed_size I)))) = Ok (leafs p)).
  { intros p Hp. rewrite Hl by exact Hp. destruct (Nat.eqb_spec p m) as [->|]; cbn; [rewrite Lm|]; reflexivity. }
  set (cf := fun p => if (4 * (n / 4) <=? p) && (p =? m) then zeros (digest_size I) else commit_to_party_seed H I (leafs p) salt rep p).
  assert (Ecom : by4 n (fun p => do s0 <- (do o <- get_leaf t p; Ok (value_or o (zeros (seed_size I))));
              do s1 <- (do o <- get_leaf t (p + 1); Ok (value_or o (zeros (seed_size I))));
              do s2 <- (do o <- get_leaf t (p + 2); Ok (value_or o (zeros (seed_size I))));
              do s3 <- (do o <- get_leaf t (p + 3); Ok (value_or o (zeros (seed_size I))));
              commit_to_4_party_seeds H I s0 s1 s2 s3 salt rep p)
    (fun p => if p =? m then Ok (zeros (digest_size I))
              else do o <- get_leaf t p; do s <- value o; Ok (commit_to_party_seed H I s salt rep p)) = Ok (map cf (seq 0 n))).
  { assert (Hn : 4 * (n / 4) <= n) by (apply Nat.mul_div_le; lia).
    unfold by4. rewrite (mapM_ok _ (fun p => [cf p; cf (p + 1); cf (p + 2); cf (p + 3)])).
    - cbn [bind]. rewrite (mapM_ok _ cf).
      + cbn [bind]. rewrite concat_blocks. rewrite <- map_app, <- seq_app. do 3 f_equal. lia.
      + intros p Hp. apply in_seq in Hp. unfold cf. destruct (Nat.leb_spec (4 * (n / 4)) p); [|lia]. cbn [andb].
        rewrite Hl by lia. destruct (p =? m); reflexivity.
    - intros p Hp. apply in_map_iff in Hp. destruct Hp as (b & <- & Hb). apply in_seq in Hb.
      assert (4 * b + 3 < 4 * (n / 4)) by lia. rewrite !Hlo by lia. cbn [bind]. rewrite commit4 by (apply Ll; lia).
      unfold cf. repeat match goal with |- context [4 * (n / 4) <=? ?x] => destruct (Nat.leb_spec (4 * (n / 4)) x); [lia|] end. reflexivity. }
  rewrite Ecom. cbn [bind]. rewrite get_map_seq by exact Hm. cbn [bind].
  rewrite copy_into_ok by (unfold cf; destruct (_ && _); [unfold zeros; rewrite repeat_length|rewrite commit_length]; exact Lc).
  cbn [bind]. rewrite set_map_seq by exact Hm. cbn [bind].
  unfold by4. rewrite (by4_eq n _ _ (fun p => generate_tape H I salt rep p (leafs p))).
  - cbn [bind]. do 2 f_equal. apply map_seq_ext. intros p _. unfold cf. destruct (p =? m); [reflexivity|]. rewrite andb_false_r. reflexivity.
  - intros p Hp. rewrite !Hlo by lia. cbn [bind]. apply tapes4; rewrite !Ll by lia; reflexivity.
  - intros p Hp. rewrite Hlo by exact Hp. reflexivity.
Qed.
(** for any well-shaped proof there are such seeds *)
Lemma verify_leaves salt proof rep m : proof_shape I proof -> m < n -> snd (p_reveal proof) = m ->
  exists t leafs, seed_tree_rev H salt rep (p_reveal proof) n = Ok t /\
  (forall p, p < n -> get_leaf t p = Ok (if p =? m then None else Some (leafs p))) /\ (forall p, p < n -> length (leafs p) = seed_size I) /\
  leafs m = zeros (seed_size I).
Proof.
  intros [P1 P2 _ _ _ _ _ _ _] Hm Em. destruct (p_reveal proof) as [entries m']. cbn [fst snd] in *. subst m'.
  destruct (second_ctor_safe H salt rep entries m n (seed_size I) (io_leaves _ _ _ OK) (io_seed _ _ _ OK) P1) as (t & Et & Hl); [|exact Hm|].
  { intros v Hv. apply P2. exact Hv. }
  exists t, (fun p => if p =? m then zeros (seed_size I) else match get_leaf t p with Ok (Some v) => v | _ => zeros (seed_size I) end).
  split; [exact Et|]. split; [|split].
  - intros p Hp. destruct (Hl p Hp) as (o & -> & A & B). destruct (Nat.eqb_spec p m) as [Hpm|Hne].
    + rewrite (proj2 A Hpm). reflexivity.
    + destruct o as [v|]; [reflexivity|]. exfalso. apply Hne, A. reflexivity.
  - intros p Hp. destruct (p =? m); [unfold zeros; apply repeat_length|]. destruct (Hl p Hp) as (o & -> & _ & B).
    destruct o as [v|]; [apply B; reflexivity|unfold zeros; apply repeat_length].
  - rewrite Nat.eqb_refl. reflexivity.
Qed.
Lemma verify_setup_gen salt proof rep m : proof_shape I proof -> m < n -> snd (p_reveal proof) = m ->
  exists leafs, verify_setup H I salt proof rep m =
  Ok (map (fun p => if p =? m then p_C proof else commit_to_party_seed H I (leafs p) salt rep p) (seq 0 n),
      map (fun p => generate_tape H I salt rep p (leafs p)) (seq 0 n)).
Proof.
  intros Hs Hm Em. destruct (verify_leaves salt proof rep m Hs Hm Em) as (t & leafs & A & B & C & D). exists leafs.
  apply (verify_setup_ok salt proof rep m leafs t); auto. apply (ps_C _ _ Hs).
Qed.

(** *** the broadcasts *)
Definition v_keys (kd : bytes) (tapes : nat -> bytes) (p : nat) : bytes := fixed kd p (t_key I (tapes p)).
Definition v_ts (td : bytes) (tapes : nat -> bytes) (p : nat) : bytes := fixed td p (t_out I (tapes p)).
Definition v_out (pt kd td : bytes) (tapes : nat -> bytes) (p : nat) : bytes * bytes := aes_out nk pt (v_keys kd tapes) (v_ts td tapes) p.
Definition v_bcast (pt ct kd td : bytes) (m : nat) (tapes : nat -> bytes) (p : nat) : bytes :=
  if p =? m then xorl ct (bothers (pt_size I) n m (fun q => fst (v_out pt kd td tapes q))) else fst (v_out pt kd td tapes p).
Lemma v_keys_str kd tapes p : str ks kd -> tape_ok I (tapes p) -> str ks (v_keys kd tapes p).
Proof. intros A B. apply fixed_str; [exact A|]. apply t_key_str; exact B. Qed.
Lemma v_ts_str td tapes p : str sb td -> tape_ok I (tapes p) -> str sb (v_ts td tapes p).
Proof. intros A B. apply fixed_str; [exact A|]. apply t_out_str; exact B. Qed.
Lemma v_out_str pt kd td tapes p : str (pt_size I) pt -> str ks kd -> str sb td -> tape_ok I (tapes p) ->
  str (pt_size I) (fst (v_out pt kd td tapes p)) /\ str sb (snd (v_out pt kd td tapes p)).
Proof.
  intros A B C D. apply (aes_out_str I c nk OK); [rewrite <- (io_pt _ _ _ OK); exact A|apply v_keys_str; assumption|apply v_ts_str; assumption].
Qed.
Lemma shares_ok pt kd td tapes : str (pt_size I) pt -> str ks kd -> str sb td -> (forall p, p < n -> tape_ok I (tapes p)) ->
  (do keys <- tape_shares I (map tapes (seq 0 n)) 0 ks; fix_first kd keys) = Ok (map (v_keys kd tapes) (seq 0 n)) /\
  (do ts <- tape_shares I (map tapes (seq 0 n)) ks sb; fix_first td ts) = Ok (map (v_ts td tapes) (seq 0 n)) /\
  aes_s_shares ks (map (v_keys kd tapes) (seq 0 n)) (map (v_ts td tapes) (seq 0 n)) pt sb = Ok (map (v_out pt kd td tapes) (seq 0 n)).
Proof.
  intros A B C D. pose proof (n_pos I c nk OK) as Hn. split; [|split].
  - rewrite tape_shares_ok; [|intros; apply D; assumption|unfold tape_size; lia]. cbn [bind].
    rewrite (fix_first_ok I c nk OK); [reflexivity|]. rewrite (proj1 B). apply (t_key_str I (tapes 0)). apply D. lia.
  - rewrite tape_shares_ok; [|intros; apply D; assumption|unfold tape_size; lia]. cbn [bind].
    rewrite (fix_first_ok I c nk OK); [reflexivity|]. rewrite (proj1 C). apply (t_out_str I (tapes 0)). apply D. lia.
  - apply (aes_shares_ok I c nk OK); [rewrite <- (io_pt _ _ _ OK); exact A| |]; intros p Hp; [apply v_keys_str|apply v_ts_str]; auto.
Qed.
Lemma foldM_others len m (f : nat -> bytes) q acc : length acc = len -> (forall p, p < q -> length (f p) = len) ->
  foldM (fun acc p => if p =? m then Ok acc else do b <- get (map f (seq 0 q)) p; xor_into b acc) (seq 0 q) acc = Ok (xorl acc (bothers len q m f)).
Proof.
  intros La Hf. assert (G : forall k, k <= q -> foldM (fun acc p => if p =? m then Ok acc else do b <- get (map f (seq 0 q)) p; xor_into b acc) (seq 0 k) acc =
    Ok (xorl acc (bothers len k m f))).
  { induction k; intros Hk.
    - cbn [seq foldM]. unfold bothers, bsum. cbn [seq map xall fold_right]. rewrite xorl_zeros_r by exact La. reflexivity.
    - rewrite seq_S. cbn [Nat.add]. rewrite PolyProofs.foldM_app, IHk by lia. cbn [bind foldM].
      assert (Lb : length (bothers len k m f) = len) by (apply bothers_len; intros; apply Hf; lia).
      unfold bothers. rewrite bsum_S by (destruct (k =? m); [unfold zeros; apply repeat_length|apply Hf; lia]). fold (bothers len k m f).
      destruct (k =? m).
      + cbn [bind]. rewrite (xorl_zeros_r (bothers len k m f)) by exact Lb. reflexivity.
      + rewrite get_map_seq by lia. cbn [bind]. rewrite xor_into_ok by (rewrite Hf, xorl_length, La, Lb by lia; symmetry; apply Nat.min_id). cbn [bind].
        rewrite (xorl_comm (f k)). rewrite xorl_assoc. reflexivity. }
  apply G. lia.
Qed.
Lemma verify_phase1_ok pt ct proof m tapes : str (pt_size I) pt -> length ct = pt_size I -> str ks (p_sk_delta proof) -> str sb (p_t_delta proof) ->
  (forall p, p < n -> tape_ok I (tapes p)) -> m < n ->
  verify_phase1 I pt ct proof m (map tapes (seq 0 n)) =
  Ok (map (fun p => snd (v_out pt (p_sk_delta proof) (p_t_delta proof) tapes p)) (seq 0 n),
      map (v_ts (p_t_delta proof) tapes) (seq 0 n),
      map (v_bcast pt ct (p_sk_delta proof) (p_t_delta proof) m tapes) (seq 0 n)).
Proof.
  intros Hpt Hct Hk Ht HT Hm. destruct (shares_ok pt _ _ tapes Hpt Hk Ht HT) as (E1 & E2 & E3). unfold verify_phase1.
  destruct (tape_shares I (map tapes (seq 0 n)) 0 ks) as [k0| | |] eqn:X; try discriminate E1. cbn [bind] in E1 |- *. rewrite E1. cbn [bind].
  destruct (tape_shares I (map tapes (seq 0 n)) ks sb) as [t0| | |] eqn:Y; try discriminate E2. cbn [bind] in E2 |- *. rewrite E2. cbn [bind].
  rewrite E3. cbn [bind]. rewrite !map_map. rewrite get_map_seq by exact Hm. cbn [bind].
  assert (Lo : forall p, p < n -> length (fst (v_out pt (p_sk_delta proof) (p_t_delta proof) tapes p)) = pt_size I).
  { intros p Hp. apply v_out_str; auto. }
  rewrite copy_into_ok by (rewrite Lo by exact Hm; exact Hct). cbn [bind].
  rewrite (foldM_others (pt_size I) m (fun p => fst (v_out pt (p_sk_delta proof) (p_t_delta proof) tapes p))) by auto. cbn [bind].
  rewrite set_map_seq by exact Hm. cbn [bind]. reflexivity.
Qed.
(** whatever the proof contains, the broadcasts xor to the ciphertext *)
Lemma v_bcast_sum pt ct kd td m tapes : str (pt_size I) pt -> length ct = pt_size I -> str ks kd -> str sb td ->
  (forall p, p < n -> tape_ok I (tapes p)) -> m < n -> bsum (pt_size I) n (v_bcast pt ct kd td m tapes) = ct.
Proof.
  intros A B C D F Hm. apply bsum_fill; [exact Hm|exact B|]. intros p Hp _. apply v_out_str; auto.
Qed.

(** *** the shares of the polynomials *)
Definition v_pts (rs : list N) (s t tapes : nat -> bytes) (p : nat) := pts_of I c rs (s p) (t p) (tapes p).
Definition v_P (rs ds : list N) (tapes : nat -> bytes) (p : nat) : list N := map (P_adj I rs ds p (tapes p)) (seq 0 (2 * M2 + 1)).
Lemma verify_phase3_ok rs proof m s t tapes : length rs = M1 -> length (p_P_delta proof) = M2 + 1 -> m < n ->
  (forall p, p < n -> tape_ok I (tapes p)) -> (forall p, p < n -> length (s p) = sb) -> (forall p, p < n -> length (t p) = sb) ->
  verify_phase3 I c rs proof m (map s (seq 0 n)) (map t (seq 0 n)) (map tapes (seq 0 n)) =
  Ok (map (fun p => if p =? m then None else Some (v_pts rs s t tapes p)) (seq 0 n),
      map (fun p => if p =? m then [] else v_P rs (p_P_delta proof) tapes p) (seq 0 n)).
Proof.
  intros Lr Ld Hm HT Hs Ht. unfold verify_phase3.
  rewrite (mapM_seq _ (fun p => if p =? m then None else Some (v_pts rs s t tapes p))).
  2:{ intros p Hp. destruct (p =? m); [reflexivity|]. rewrite !get_map_seq by exact Hp. cbn [bind].
      rewrite (party_points_ok I c nk OK) by auto. reflexivity. }
  cbn [bind]. rewrite (mapM_seq _ (fun p => if p =? m then [] else map (P_pt I rs p (tapes p)) (seq 0 (2 * M2 + 1)))).
  2:{ intros p Hp. destruct (p =? m); [reflexivity|]. rewrite get_map_seq by exact Hp. cbn [bind]. apply (P_share_ok I c nk OK); auto. }
  cbn [bind]. destruct (Nat.eqb_spec 0 m) as [<-|Hne]; cbn [bind].
  - do 2 f_equal. apply map_seq_ext. intros p _. destruct (Nat.eqb_spec p 0) as [->|Hp]; [reflexivity|].
    unfold v_P. apply map_seq_ext. intros k _. unfold P_adj. apply Nat.eqb_neq in Hp. rewrite Hp. reflexivity.
  - rewrite (adjust_first_ok I c nk OK _ _ (P_pt I rs 0 (tapes 0))); [|exact Ld|].
    + cbn [bind]. do 2 f_equal. apply map_seq_ext. intros p _. destruct (Nat.eqb_spec p 0) as [->|Hp].
      * destruct (Nat.eqb_spec 0 m); [congruence|]. apply map_seq_ext. intros k _. unfold P_adj. cbn [Nat.eqb andb]. reflexivity.
      * destruct (p =? m); [reflexivity|]. apply map_seq_ext. intros k _. unfold P_adj. apply Nat.eqb_neq in Hp. rewrite Hp. reflexivity.
    + destruct (Nat.eqb_spec 0 m); [congruence|reflexivity].
Qed.

(** *** the views *)
Definition v_s (rs : list N) (s tapes : nat -> bytes) (p : nat) : nat -> nat -> N := s_pt I c rs (s p) (tapes p).
Definition v_t (t tapes : nat -> bytes) (p : nat) : nat -> nat -> N := t_pt I c (t p) (tapes p).
Definition known (l1 l2 : nat -> N) (rs ds : list N) (s t tapes : nat -> bytes) (p : nat) : view :=
  view_of I c l1 l2 (v_s rs s tapes p) (v_t t tapes p) (P_adj I rs ds p (tapes p)).
Definition v_views (l1 l2 : nat -> N) (rs ds : list N) (s t tapes : nat -> bytes) (m : nat) (o : view) (p : nat) : view :=
  if p =? m then
    ((map (fun j => N.lxor (nth j (v_a o) 0%N) (gothers n m (fun q => inner c (M2 + 1) l1 (v_s rs s tapes q j)))) (seq 0 M1),
      map (fun j => N.lxor (nth j (v_b o) 0%N) (gothers n m (fun q => inner c (M2 + 1) l1 (v_t t tapes q j)))) (seq 0 M1)),
      N.lxor (v_c o) (gothers n m (fun q => inner c (2 * M2 + 1) l2 (P_adj I rs ds q (tapes q)))))
  else known l1 l2 rs ds s t tapes p.
Lemma foldM_known {A} (f : A -> res N) (g : A -> N) m q (h : nat -> A) x : (forall p, p < q -> p <> m -> f (h p) = Ok (g (h p))) ->
  foldM (fun acc ov => match ov with None => Ok acc | Some v => do y <- f v; Ok (gadd acc y) end)
    (map (fun p => if p =? m then None else Some (h p)) (seq 0 q)) x = Ok (N.lxor x (gothers q m (fun p => g (h p)))).
Proof.
  intros Hf. assert (G : forall k, k <= q -> foldM (fun acc ov => match ov with None => Ok acc | Some v => do y <- f v; Ok (gadd acc y) end)
    (map (fun p => if p =? m then None else Some (h p)) (seq 0 k)) x = Ok (N.lxor x (gothers k m (fun p => g (h p))))).
  { induction k; intros Hk; [cbn; rewrite N.lxor_0_r; reflexivity|]. rewrite seq_S, map_app, PolyProofs.foldM_app, IHk by lia. cbn [Nat.add map bind foldM].
    unfold gothers. rewrite gsum_S. destruct (Nat.eqb_spec k m).
    - cbn [bind]. rewrite N.lxor_0_r. reflexivity.
    - rewrite Hf by (auto; lia). cbn [bind]. unfold gadd. rewrite N.lxor_assoc. reflexivity. }
  apply G. lia.
Qed.
Lemma fold_left_known {A} (g : A -> N) m q (h : nat -> A) x :
  fold_left (fun acc ov => match ov with None => acc | Some v => gadd acc (g v) end)
    (map (fun p => if p =? m then None else Some (h p)) (seq 0 q)) x = N.lxor x (gothers q m (fun p => g (h p))).
Proof.
  induction q; [cbn; rewrite N.lxor_0_r; reflexivity|]. rewrite seq_S, map_app, fold_left_app, IHq. cbn [Nat.add map fold_left].
  unfold gothers. rewrite gsum_S. destruct (q =? m); [rewrite N.lxor_0_r; reflexivity|]. unfold gadd. apply N.lxor_assoc.
Qed.
Lemma verify_phase5_ok pre1 pre2 R proof m rs s t tapes : lagr lam c (xs1 I c) pre1 -> lagr lam c (xs2 I c) pre2 -> E R ->
  length (p_S_at_R proof) = M1 -> length (p_T_at_R proof) = M1 ->
  let o := ((p_S_at_R proof, p_T_at_R proof), p_P_at_R proof) in
  verify_phase5 I c pre1 pre2 R proof m
    (map (fun p => if p =? m then None else Some (v_pts rs s t tapes p)) (seq 0 n),
     map (fun p => if p =? m then [] else v_P rs (p_P_delta proof) tapes p) (seq 0 n)) =
  Ok (o, map (v_views (fun k => lag c pre1 k R) (fun k => lag c pre2 k R) rs (p_P_delta proof) s t tapes m o) (seq 0 n)).
Proof.
  intros G1 G2 HR LS LT o. unfold verify_phase5.
  pose proof (lagrange_at_ok I c nk OK _ _ R G1 HR) as X1. pose proof (lagrange_at_ok I c nk OK _ _ R G2 HR) as X2.
  rewrite (proj1 (proj2 (xs1_ok I c nk OK))) in X1. rewrite (proj1 (proj2 (xs2_ok I c nk OK))) in X2. rewrite X1. cbn [bind]. rewrite X2. cbn [bind fst snd].
  set (l1 := fun k => lag c pre1 k R). set (l2 := fun k => lag c pre2 k R). set (ds := p_P_delta proof).
  rewrite (mapM_seq _ (fun p => if p =? m then None else Some (known l1 l2 rs ds s t tapes p))).
  2:{ intros p Hp. destruct (p =? m) eqn:Epm; [reflexivity|]. rewrite !get_map_seq by exact Hp. cbn [bind]. rewrite Epm. unfold v_pts, pts_of, v_P.
      rewrite (party_view_ok I c nk OK). reflexivity. }
  cbn [bind]. rewrite (mapM_seq _ (fun j => nth j (p_S_at_R proof) 0%N)) by (intros j Hj; apply get_ok; lia). cbn [bind].
  rewrite (mapM_seq _ (fun j => nth j (p_T_at_R proof) 0%N)) by (intros j Hj; apply get_ok; lia). cbn [bind].
  rewrite <- (list_map_nth' (p_S_at_R proof)) by exact LS. rewrite <- (list_map_nth' (p_T_at_R proof)) by exact LT.
  rewrite (mapM_seq _ (fun j => N.lxor (nth j (p_S_at_R proof) 0%N) (gothers n m (fun q => inner c (M2 + 1) l1 (v_s rs s tapes q j))))).
  2:{ intros j Hj. rewrite (get_ok _ j 0%N) by lia. cbn [bind].
      rewrite (foldM_known (fun v => get (v_a v) j) (fun v => nth j (v_a v) 0%N) m n (known l1 l2 rs ds s t tapes)).
      - do 2 f_equal. apply gothers_ext. intros p _ _. unfold known, view_of, v_a. cbn [fst snd]. rewrite nth_map_seq by exact Hj. reflexivity.
      - intros p _ _. apply get_ok. unfold known, view_of, v_a. cbn [fst snd]. rewrite length_map_seq. exact Hj. }
  cbn [bind].
  rewrite (mapM_seq _ (fun j => N.lxor (nth j (p_T_at_R proof) 0%N) (gothers n m (fun q => inner c (M2 + 1) l1 (v_t t tapes q j))))).
  2:{ intros j Hj. rewrite (get_ok _ j 0%N) by lia. cbn [bind].
      rewrite (foldM_known (fun v => get (v_b v) j) (fun v => nth j (v_b v) 0%N) m n (known l1 l2 rs ds s t tapes)).
      - do 2 f_equal. apply gothers_ext. intros p _ _. unfold known, view_of, v_b. cbn [fst snd]. rewrite nth_map_seq by exact Hj. reflexivity.
      - intros p _ _. apply get_ok. unfold known, view_of, v_b. cbn [fst snd]. rewrite length_map_seq. exact Hj. }
  cbn [bind]. rewrite (fold_left_known v_c m n (known l1 l2 rs ds s t tapes)). rewrite map_map. do 2 f_equal.
  apply map_seq_ext. intros p _. unfold v_views. destruct (p =? m); reflexivity.
Qed.
(** whatever the proof contains, the shares sum to the opened values *)
Lemma v_views_sum l1 l2 rs ds s t tapes m o : m < n ->
  (forall j, j < M1 -> gsum n (fun p => nth j (v_a (v_views l1 l2 rs ds s t tapes m o p)) 0%N) = nth j (v_a o) 0%N) /\
  (forall j, j < M1 -> gsum n (fun p => nth j (v_b (v_views l1 l2 rs ds s t tapes m o p)) 0%N) = nth j (v_b o) 0%N) /\
  gsum n (fun p => v_c (v_views l1 l2 rs ds s t tapes m o p)) = v_c o.
Proof.
  intros Hm. repeat split; [intros j Hj|intros j Hj|].
  - symmetry. etransitivity; [symmetry; exact (gsum_fill n m (fun q => inner c (M2 + 1) l1 (v_s rs s tapes q j)) (nth j (v_a o) 0%N) Hm)|].
    apply gsum_ext. intros p _. unfold v_views, known, view_of, v_a at 2. destruct (p =? m); cbn [fst snd]; rewrite nth_map_seq by exact Hj; reflexivity.
  - symmetry. etransitivity; [symmetry; exact (gsum_fill n m (fun q => inner c (M2 + 1) l1 (v_t t tapes q j)) (nth j (v_b o) 0%N) Hm)|].
    apply gsum_ext. intros p _. unfold v_views, known, view_of, v_b at 2. destruct (p =? m); cbn [fst snd]; rewrite nth_map_seq by exact Hj; reflexivity.
  - symmetry. etransitivity; [symmetry; exact (gsum_fill n m (fun q => inner c (2 * M2 + 1) l2 (P_adj I rs ds q (tapes q))) (v_c o) Hm)|].
    apply gsum_ext. intros p _. unfold v_views. destruct (p =? m); reflexivity.
Qed.
End Verify.
