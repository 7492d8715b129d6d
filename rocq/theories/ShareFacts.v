(** The corrections of the sharings made by the signer are exact: phases 1 and 3 for arbitrary tapes, and the values
    stored in a signature. *)
From Coq Require Import Arith NArith List Bool Lia.
From Verif Require Import Prelude FieldModel FieldSpec FieldApi FieldLin PolyModel Instances HashModel TreeModel TreeSpec TreeApi TreeRev AesSpec AesModel AesBase AesApi AesShares BanquetModel ContainerModel ListSum BanquetHash BanquetPure BanquetVerify BanquetSign BanquetPoly BanquetCtx BanquetRun Serialize BanquetApi FreeSpec.
Import ListNotations.

Section Shares.
Variables (I : instance) (c : fctx) (nk : nat).
Hypothesis OK : inst_ok I c nk.
Let HI := io_field _ _ _ OK.
Notation ks := (key_size (i_aes I)).
Notation sb := (num_sboxes (i_aes I)).
Notation n := (num_parties I).
Notation M1 := (m1 I).
Notation M2 := (m2 I).

Lemma save_ok key pt : str ks key -> str (pt_size I) pt -> aes_with_sbox_output ks key pt = Ok (aes_n_save nk key pt).
Proof.
  intros Hk Hp. unfold aes_with_sbox_output. rewrite (by_key I c nk OK). cbn [bind]. rewrite read_all by apply Hk. cbn [bind].
  rewrite (pt_size_eq I c nk OK), read_all by apply Hp. cbn [bind]. destruct (io_nk _ _ _ OK) as [<-|[<-|[<-|[]]]]; reflexivity.
Qed.
Lemma key_ok_of key pt ct s t : str ks key -> str (pt_size I) pt -> aes_with_sbox_output ks key pt = Ok ((s, t), Some ct) -> key_ok I nk key pt ct s t.
Proof. intros Hk Hp E. rewrite save_ok in E by assumption. injection E as E. constructor; assumption. Qed.

Variables (key pt ct s t : bytes).
Hypothesis KO : key_ok I nk key pt ct s t.
Variable tapes : list bytes.
Hypothesis Lt : length tapes = n.
Hypothesis Ft : Forall (str (tape_size I)) tapes.
Let tp (p : nat) : bytes := nth p tapes [].
Lemma tapes_map : tapes = map tp (seq 0 n). Proof. apply list_map_nth'. exact Lt. Qed.
Lemma tp_ok p : p < n -> tape_ok I (tp p).
Proof. intros Hp. unfold tape_ok. rewrite Forall_forall in Ft. apply Ft. apply nth_In. rewrite Lt. exact Hp. Qed.

Definition ph1 : rep1 := mkRep1 (kd I key tp) (td I t tp) (map (v_keys I (kd I key tp) tp) (seq 0 n)) (map (v_ts I (td I t tp) tp) (seq 0 n))
       (map (fun p => snd (outs I nk key pt t tp p)) (seq 0 n)) (map (fun p => fst (outs I nk key pt t tp p)) (seq 0 n)).
Lemma ph1_eq : sign_phase1 I key t pt tapes = Ok ph1.
Proof. rewrite tapes_map at 1. apply (sign_phase1_ok I c nk OK key pt ct s t KO tp tp_ok). Qed.
Lemma phase1_shares : exists r, sign_phase1 I key t pt tapes = Ok r /\
  length (r1_keys r) = n /\ length (r1_t r) = n /\ length (r1_s r) = n /\ length (r1_bcast r) = n /\
  xall ks (r1_keys r) = key /\ xall sb (r1_t r) = t /\ xall sb (r1_s r) = s /\ xall (pt_size I) (r1_bcast r) = ct /\
  nth 0 (r1_keys r) [] = xorl (r1_key_delta r) (slice (nth 0 tapes []) 0 ks) /\
  nth 0 (r1_t r) [] = xorl (r1_t_delta r) (slice (nth 0 tapes []) ks sb) /\
  (forall p, 1 <= p < n -> nth p (r1_keys r) [] = slice (nth p tapes []) 0 ks /\ nth p (r1_t r) [] = slice (nth p tapes []) ks sb).
Proof.
  exists ph1. split; [exact ph1_eq|]. unfold ph1. cbn [r1_keys r1_t r1_s r1_bcast r1_key_delta r1_t_delta]. rewrite !length_map_seq.
  do 4 (split; [reflexivity|]). destruct (outs_sum I c nk OK key pt ct s t KO tp tp_ok) as [A B]. pose proof (n_pos I c nk OK) as Hn.
  split; [exact (keys_sum I c nk OK key pt ct s t KO tp tp_ok)|]. split; [exact (ts_sum I c nk OK key pt ct s t KO tp tp_ok)|].
  split; [exact B|]. split; [exact A|]. split; [rewrite nth_map_seq by lia; reflexivity|]. split; [rewrite nth_map_seq by lia; reflexivity|].
  intros p Hp. rewrite !nth_map_seq by lia. unfold v_keys, v_ts, fixed. destruct (Nat.eqb_spec p 0); [lia|]. split; reflexivity.
Qed.

Notation E := (elt (lambda I)).
Notation H0 := (horner gadd (gmul c)).
Lemma phase3_shares pre1 last sq prods r rs : length rs = M1 -> Forall E rs ->
  precompute_lagrange_polynomials (gops c) (get_first_n_field_elements c (M2 + 1)) = Ok pre1 -> get pre1 M2 = Ok last ->
  vmul (gops c) last last = Ok sq -> mapM (sbox_products I c pre1 last s t) (seq 0 M1) = Ok prods ->
  sign_phase1 I key t pt tapes = Ok r ->
  let xs := get_first_n_field_elements c (2 * M2 + 1) in
  exists q, sign_phase3 I c xs prods sq rs r tapes = Ok q /\
  length (r3_P q) = 2 * M2 + 1 /\ Forall E (r3_P q) /\ length (r3_shares q) = n /\ length (r3_pts q) = n /\
  (forall k, k < 2 * M2 + 1 -> xsum (map (fun sh => nth k sh 0%N) (r3_shares q)) = H0 (r3_P q) (nth k xs 0%N)) /\
  (forall k, k < M2 -> H0 (r3_P q) (nth k xs 0%N) = xsum rs) /\
  (forall j k, j < M1 -> k < M2 ->
     xsum (map (fun pp => nth k (nth j (fst pp) []) 0%N) (r3_pts q)) = gmul c (nth j rs 0%N) (lift c (nth (j + M1 * k) s 0%N)) /\
     xsum (map (fun pp => nth k (nth j (snd pp) []) 0%N) (r3_pts q)) = lift c (nth (j + M1 * k) t 0%N)).
Proof.
  intros Lr Fr Epre Elast Esq Eprods E1 xs. rewrite ph1_eq in E1. injection E1 as <-.
  destruct (lagr1 I c nk OK) as [p1 G1]. pose proof (lg_pre _ _ _ _ G1) as X. change (xs1 I c) with (get_first_n_field_elements c (M2 + 1)) in X.
  rewrite Epre in X. injection X as <-. destruct (key_facts I c nk OK key pt ct s t KO) as (Hs & Ht & _ & Hst).
  destruct (last1_ok I c nk OK pre1 G1) as (X & _). rewrite X in Elast. injection Elast as <-. clear X.
  destruct (sq_ok I c nk OK pre1 G1) as (sq' & X & Lq & Fq & Hq). rewrite X in Esq. injection Esq as ->. clear X.
  destruct (prods_ok I c nk OK pre1 G1 s t Hs Ht) as (prods' & X & Lp & Hp). rewrite X in Eprods. injection Eprods as ->. clear X.
  assert (Hss : forall p, p < n -> str sb (snd (outs I nk key pt t tp p))) by (intros p Hpn; apply (outs_str I c nk OK _ _ _ _ _ KO); [exact tp_ok|exact Hpn]).
  assert (Hts : forall p, p < n -> str sb (v_ts I (td I t tp) tp p)) by (intros p Hpn; apply v_ts_str; [apply (td_str I c nk OK _ _ _ _ _ KO); exact tp_ok|apply tp_ok; exact Hpn]).
  destruct (outs_sum I c nk OK key pt ct s t KO tp tp_ok) as [_ Ssum]. pose proof (ts_sum I c nk OK key pt ct s t KO tp tp_ok) as Tsum.
  destruct (sign_phase3_ok I c nk OK pre1 G1 s t (fun p => snd (outs I nk key pt t tp p)) (v_ts I (td I t tp) tp) tp tp_ok Hss Hts rs Lr Fr prods sq
    (kd I key tp) (td I t tp) (map (v_keys I (kd I key tp) tp) (seq 0 n)) (map (fun p => fst (outs I nk key pt t tp p)) (seq 0 n)) Lp Hp Lq Fq Hq)
    as (P & ds & E3 & HP & Hd).
  eexists. split; [rewrite tapes_map at 1; exact E3|]. cbn [r3_P r3_shares r3_pts]. pose proof HP as (LP & FP & EP).
  split; [exact LP|]. split; [exact FP|]. rewrite !length_map_seq. do 2 (split; [reflexivity|]). split; [|split].
  - intros k Hk. rewrite map_map. change xs with (xs2 I c). rewrite <- (P_sum I c nk OK pre1 G1 s t Hs Ht Hst tp rs Lr Fr P ds k HP Hd Hk). unfold gsum. f_equal. apply map_seq_ext.
    intros p Hpn. unfold v_P. apply nth_map_seq. exact Hk.
  - intros k Hk. change xs with (xs2 I c). rewrite EP by (apply (xs2_elt I c nk OK); lia).
    transitivity (sum_r I rs).
    + pose proof (product_at I c nk OK pre1 G1 s t Hs Ht Hst rs (map (sr I tp) (seq 0 M1)) (map (tr I tp) (seq 0 M1)) k Lr Fr Hk) as Z.
      rewrite <- Z. apply gsum_ext. intros j Hj. rewrite !nth_map_seq by exact Hj. reflexivity.
    + unfold sum_r, gsum. f_equal. symmetry. rewrite <- Lr. apply list_map_nth.
  - intros j k Hj Hk. rewrite !map_map. split.
    + pose proof (s_pt_sum I c nk OK s (fun p => snd (outs I nk key pt t tp p)) tp Hss Ssum rs Fr j k Hj ltac:(lia)) as Z.
      destruct (Nat.ltb_spec k M2); [|lia]. unfold bv in Z. rewrite <- Z. unfold gsum. f_equal. apply map_seq_ext. intros p Hpn.
      unfold v_pts, pts_of. cbn [fst]. rewrite nth_map_seq by exact Hj. apply nth_map_seq. lia.
    + pose proof (t_pt_sum I c nk OK t (v_ts I (td I t tp) tp) tp Hts Tsum j k Hj ltac:(lia)) as Z.
      destruct (Nat.ltb_spec k M2); [|lia]. unfold bv in Z. rewrite <- Z. unfold gsum. f_equal. apply map_seq_ext. intros p Hpn.
      unfold v_pts, pts_of. cbn [snd]. rewrite nth_map_seq by exact Hj. apply nth_map_seq. lia.
Qed.
End Shares.

(** *** the corrections stored in a signature *)
Lemma squeeze_seeds_nth H I v m k : forall off r, r < k -> nth r (squeeze_seeds H I k (mkCtx v m (Some off))) [] = stream H v m (off + r * seed_size I) (seed_size I).
Proof.
  induction k; intros off r Hr; [lia|]. cbn [squeeze_seeds hash_squeeze h_v h_in h_off]. destruct r as [|r]; cbn [nth].
  - rewrite Nat.mul_0_l, Nat.add_0_r. reflexivity.
  - rewrite IHk by lia. f_equal. cbn [Nat.mul]. lia.
Qed.
Lemma sign_deltas H I c nk key pt ct s t fuel garb st st' msg sig : inst_ok I c nk -> key_ok I nk key pt ct s t ->
  sign H fuel garb st I (key, pt ++ ct) msg = (st', Ok sig) -> forall e, e < num_rounds I ->
  let ks := key_size (i_aes I) in let sb := num_sboxes (i_aes I) in
  let root := stream H (digest_size I =? 32) (le16 (i_params I) ++ key ++ (pt ++ ct) ++ msg) (32 + e * seed_size I) (seed_size I) in
  let seed := leaf_seed H (s_salt sig) e root (num_parties I) in
  let tape p := stream H (2 * seed_size I =? 32) (seed p ++ s_salt sig ++ le16 e ++ le16 p) 0 (tape_size I) in
  exists pf, nth_error (s_proofs sig) e = Some pf /\
    xorl (p_sk_delta pf) (xall ks (map (fun p => slice (tape p) 0 ks) (seq 0 (num_parties I)))) = key /\
    xorl (p_t_delta pf) (xall sb (map (fun p => slice (tape p) ks sb) (seq 0 (num_parties I)))) = t.
Proof.
  intros OK KO ES e He ks sb root seed tape. unfold sign in ES. rewrite (with_field_ok _ _ _ _ (io_field _ _ _ OK)) in ES. injection ES as _ ES.
  destruct (lagr1 I c nk OK) as [pre1 G1]. destruct (lagr2 I c nk OK) as [pre2 G2].
  destruct (sign_run H I c nk OK pre1 pre2 G1 G2 key pt ct s t KO msg fuel garb) as [[X _]|(D & sig' & X & RO)]; rewrite X in ES; [discriminate ES|].
  injection ES as ->. pose proof (ro_sig _ _ _ _ _ _ _ _ _ _ _ _ _ _ _ _ RO) as Sg.
  exists (sg_proof H I c pre1 key pt ct s t msg e (D e)).
  assert (Es : s_salt sig = sg_salt H I key pt ct msg) by (rewrite Sg; reflexivity).
  assert (Er : root = sg_seed H I key pt ct msg e).
  { unfold sg_seed, generate_salt_and_seeds. unfold hash_squeeze, hash_final, hash_update_u16, hash_update, hash_init. cbn [h_v h_in h_off fst snd].
    rewrite squeeze_seeds_nth by exact He. unfold root. cbn [app Nat.add]. f_equal. rewrite <- !app_assoc. reflexivity. }
  assert (Et : forall p, tape p = sg_tape H I key pt ct msg e p).
  { intros p. unfold tape, seed. rewrite Es, Er. unfold sg_tape, l_tape, generate_tape. unfold hash_squeeze, hash_final, hash_update_u16, hash_update, hash_init. cbn [h_v h_in h_off fst snd app].
    rewrite <- !app_assoc. f_equal. f_equal. unfold leaf_seed. rewrite node_seed_length. rewrite (proj1 (proj2 (seeds_ok H I key pt ct msg) e He)). lia. }
  split; [rewrite Sg; cbn [s_proofs]; rewrite nth_error_map, (nth_error_nth' _ 0) by (rewrite seq_length; exact He); rewrite seq_nth by exact He; reflexivity|].
  cbn [sg_proof p_sk_delta p_t_delta]. split.
  - rewrite (map_seq_ext _ (fun p => t_key I (sg_tape H I key pt ct msg e p))) by (intros p Hp; rewrite Et; reflexivity).
    unfold sg_kd, kd. apply (xorl_cancel_r key). fold (bsum ks (num_parties I) (fun p => t_key I (sg_tape H I key pt ct msg e p))).
    rewrite bsum_len; [apply KO|]. intros p Hp. apply t_key_str. apply sg_tape_ok.
  - rewrite (map_seq_ext _ (fun p => t_out I (sg_tape H I key pt ct msg e p))) by (intros p Hp; rewrite Et; reflexivity).
    unfold sg_td, td. apply (xorl_cancel_r t). fold (bsum sb (num_parties I) (fun p => t_out I (sg_tape H I key pt ct msg e p))).
    rewrite bsum_len; [apply (key_facts I c nk OK key pt ct s t KO)|]. intros p Hp. apply t_out_str. apply sg_tape_ok.
Qed.

(** *** for the parameter sets *)
Lemma inst_with I c : regular I -> init_extension_field (lambda I) = Ok c -> inst_ok I c (nk_of I).
Proof. intros HB Hc. destruct (regular_inst_ok I HB) as [c' OK]. pose proof (io_field _ _ _ OK) as X. rewrite Hc in X. injection X as ->. exact OK. Qed.
Lemma api_phase1 I key pt ct s t tapes : regular I ->
  let ks := key_size (i_aes I) in let sb := num_sboxes (i_aes I) in
  str ks key -> str (pt_size I) pt -> aes_with_sbox_output ks key pt = Ok ((s, t), Some ct) ->
  length tapes = num_parties I -> Forall (str (tape_size I)) tapes ->
  exists r, sign_phase1 I key t pt tapes = Ok r /\
  length (r1_keys r) = num_parties I /\ length (r1_t r) = num_parties I /\ length (r1_s r) = num_parties I /\ length (r1_bcast r) = num_parties I /\
  xall ks (r1_keys r) = key /\ xall sb (r1_t r) = t /\ xall sb (r1_s r) = s /\ xall (pt_size I) (r1_bcast r) = ct /\
  nth 0 (r1_keys r) [] = xorl (r1_key_delta r) (slice (nth 0 tapes []) 0 ks) /\
  nth 0 (r1_t r) [] = xorl (r1_t_delta r) (slice (nth 0 tapes []) ks sb) /\
  (forall p, 1 <= p < num_parties I -> nth p (r1_keys r) [] = slice (nth p tapes []) 0 ks /\ nth p (r1_t r) [] = slice (nth p tapes []) ks sb).
Proof.
  intros HB ks sb Hk Hp EA L F. destruct (regular_inst_ok I HB) as [c OK].
  exact (phase1_shares I c _ OK key pt ct s t (key_ok_of I c _ OK key pt ct s t Hk Hp EA) tapes L F).
Qed.
Lemma api_phase3 I c key pt ct s t tapes pre last sq prods r rs : regular I -> init_extension_field (lambda I) = Ok c ->
  str (key_size (i_aes I)) key -> str (pt_size I) pt -> aes_with_sbox_output (key_size (i_aes I)) key pt = Ok ((s, t), Some ct) ->
  length tapes = num_parties I -> Forall (str (tape_size I)) tapes -> sign_phase1 I key t pt tapes = Ok r ->
  length rs = m1 I -> Forall (elt (lambda I)) rs ->
  precompute_lagrange_polynomials (gops c) (get_first_n_field_elements c (m2 I + 1)) = Ok pre -> get pre (m2 I) = Ok last ->
  vmul (gops c) last last = Ok sq -> mapM (sbox_products I c pre last s t) (seq 0 (m1 I)) = Ok prods ->
  let xs := get_first_n_field_elements c (2 * m2 I + 1) in let value := horner gadd (gmul c) in
  exists q, sign_phase3 I c xs prods sq rs r tapes = Ok q /\
  length (r3_P q) = 2 * m2 I + 1 /\ Forall (elt (lambda I)) (r3_P q) /\ length (r3_shares q) = num_parties I /\ length (r3_pts q) = num_parties I /\
  (forall k, k < 2 * m2 I + 1 -> xsum (map (fun sh => nth k sh 0%N) (r3_shares q)) = value (r3_P q) (nth k xs 0%N)) /\
  (forall k, k < m2 I -> value (r3_P q) (nth k xs 0%N) = xsum rs) /\
  (forall j k, j < m1 I -> k < m2 I ->
     xsum (map (fun pp => nth k (nth j (fst pp) []) 0%N) (r3_pts q)) = gmul c (nth j rs 0%N) (lift c (nth (j + m1 I * k) s 0%N)) /\
     xsum (map (fun pp => nth k (nth j (snd pp) []) 0%N) (r3_pts q)) = lift c (nth (j + m1 I * k) t 0%N)).
Proof.
  intros HB Hc Hk Hp EA L F E1 Lr Fr X1 X2 X3 X4. pose proof (inst_with I c HB Hc) as OK.
  exact (phase3_shares I c _ OK key pt ct s t (key_ok_of I c _ OK key pt ct s t Hk Hp EA) tapes L F pre last sq prods r rs Lr Fr X1 X2 X3 X4 E1).
Qed.
Lemma api_phase3_defined I c key pt ct s t : regular I -> init_extension_field (lambda I) = Ok c ->
  str (key_size (i_aes I)) key -> str (pt_size I) pt -> aes_with_sbox_output (key_size (i_aes I)) key pt = Ok ((s, t), Some ct) ->
  exists pre last sq prods,
  precompute_lagrange_polynomials (gops c) (get_first_n_field_elements c (m2 I + 1)) = Ok pre /\ get pre (m2 I) = Ok last /\
  vmul (gops c) last last = Ok sq /\ mapM (sbox_products I c pre last s t) (seq 0 (m1 I)) = Ok prods.
Proof.
  intros HB Hc Hk Hp EA. pose proof (inst_with I c HB Hc) as OK. pose proof (key_ok_of I c _ OK key pt ct s t Hk Hp EA) as KO.
  destruct (lagr1 I c _ OK) as [pre G1]. destruct (key_facts I c _ OK key pt ct s t KO) as (Hs & Ht & _ & _).
  destruct (sq_ok I c _ OK pre G1) as (sq & A & _). destruct (prods_ok I c _ OK pre G1 s t Hs Ht) as (prods & B & _).
  exists pre, (last1 I pre), sq, prods. split; [exact (lg_pre _ _ _ _ G1)|]. split; [apply (last1_ok I c _ OK pre G1)|]. split; assumption.
Qed.
Lemma api_deltas H I key pt ct s t fuel garb st st' msg sig : regular I ->
  let ks := key_size (i_aes I) in let sb := num_sboxes (i_aes I) in
  str ks key -> str (pt_size I) pt -> aes_with_sbox_output ks key pt = Ok ((s, t), Some ct) ->
  sign H fuel garb st I (key, pt ++ ct) msg = (st', Ok sig) -> forall e, e < num_rounds I ->
  let root := stream H (digest_size I =? 32) (le16 (i_params I) ++ key ++ (pt ++ ct) ++ msg) (32 + e * seed_size I) (seed_size I) in
  let seed := leaf_seed H (s_salt sig) e root (num_parties I) in
  let tape p := stream H (2 * seed_size I =? 32) (seed p ++ s_salt sig ++ le16 e ++ le16 p) 0 (tape_size I) in
  exists pf, nth_error (s_proofs sig) e = Some pf /\
    xorl (p_sk_delta pf) (xall ks (map (fun p => slice (tape p) 0 ks) (seq 0 (num_parties I)))) = key /\
    xorl (p_t_delta pf) (xall sb (map (fun p => slice (tape p) ks sb) (seq 0 (num_parties I)))) = t.
Proof.
  intros HB ks sb Hk Hp EA ES e He. destruct (regular_inst_ok I HB) as [c OK].
  exact (sign_deltas H I c _ key pt ct s t fuel garb st st' msg sig OK (key_ok_of I c _ OK key pt ct s t Hk Hp EA) ES e He).
Qed.
