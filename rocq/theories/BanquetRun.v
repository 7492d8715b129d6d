(** Signing with a valid key: it ends with a signature (or runs out of sampling fuel), and verification accepts it.
    In the section ct0 is the ciphertext of the key, and ct the one in the key pair, which need not be the same. *)
From Coq Require Import Arith NArith List Bool Lia.
From Verif Require Import Prelude FieldModel FieldSpec FieldApi FieldLin PolyModel Instances HashModel TreeModel TreeSpec TreeApi TreeRev AesSpec AesModel AesBase AesApi AesShares BanquetModel ContainerModel ListSum BanquetHash BanquetPure BanquetVerify BanquetSign BanquetPoly BanquetCtx.
Import ListNotations.

Lemma read_app_l (a b : bytes) k : length a = k -> read (a ++ b) 0 k = Ok a.
Proof. intros <-. rewrite read_ok by (rewrite app_length; lia). unfold slice. cbn [skipn]. rewrite firstn_app, firstn_all, Nat.sub_diag. cbn [firstn]. rewrite app_nil_r. reflexivity. Qed.
Lemma read_app_r (a b : bytes) k m : length a = k -> length b = m -> read (a ++ b) k m = Ok b.
Proof.
  intros <- <-. rewrite read_ok by (rewrite app_length; lia). unfold slice. rewrite skipn_app, skipn_all, Nat.sub_diag. cbn [skipn app]. rewrite firstn_all. reflexivity.
Qed.

Section Run.
Variables (H : oracle) (I : instance) (c : fctx) (nk : nat).
Hypothesis OK : inst_ok I c nk.
Let HI := io_field _ _ _ OK.
Notation E := (elt (lambda I)).
Notation ks := (key_size (i_aes I)).
Notation sb := (num_sboxes (i_aes I)).
Notation lam := (lambda I).
Notation n := (num_parties I).
Notation M1 := (m1 I).
Notation M2 := (m2 I).
Notation T := (num_rounds I).
Variables (pre1 pre2 : list (list N)).
Hypothesis G1 : lagr lam c (xs1 I c) pre1.
Hypothesis G2 : lagr lam c (xs2 I c) pre2.
Variables (key pt ct0 ct s t : bytes).
Hypothesis KO : key_ok I nk key pt ct0 s t.
Hypothesis Hct : length ct = pt_size I.
Variable msg : bytes.

Lemma squeeze_seeds_len k : forall ctx, length (squeeze_seeds H I k ctx) = k /\ Forall (fun x : bytes => str (seed_size I) x) (squeeze_seeds H I k ctx).
Proof.
  induction k; intros ctx; cbn [squeeze_seeds]; [split; [reflexivity|constructor]|]. destruct (hash_squeeze H ctx (seed_size I)) as [b cb] eqn:Es.
  cbn [length]. split; [f_equal; apply IHk|]. constructor; [exact (squeeze_shape _ _ _ _ _ Es)|apply IHk].
Qed.
Definition sg_salt : bytes := fst (generate_salt_and_seeds H I (key, pt ++ ct) msg).
Definition sg_seed (r : nat) : bytes := nth r (snd (generate_salt_and_seeds H I (key, pt ++ ct) msg)) [].
Lemma salt_str : str SALT_SIZE sg_salt.
Proof. unfold sg_salt, generate_salt_and_seeds. cbn [hash_squeeze fst]. split; [apply stream_length|apply stream_bytes]. Qed.
Lemma seeds_ok : length (snd (generate_salt_and_seeds H I (key, pt ++ ct) msg)) = T /\ forall r, r < T -> str (seed_size I) (sg_seed r).
Proof.
  unfold sg_seed, generate_salt_and_seeds. cbv zeta. destruct (hash_squeeze H _ SALT_SIZE) as [sl cx]. cbn [fst snd].
  match goal with |- context [squeeze_seeds H I T ?x] => destruct (squeeze_seeds_len T x) as [A B] end. split; [exact A|].
  intros r Hr. rewrite Forall_forall in B. apply B. apply nth_In. rewrite A. exact Hr.
Qed.
Definition sg_com (r : nat) : nat -> bytes := l_com H I sg_salt (sg_seed r) r.
Definition sg_tape (r : nat) : nat -> bytes := l_tape H I sg_salt (sg_seed r) r.
Lemma sg_tape_ok r p : tape_ok I (sg_tape r p). Proof. unfold sg_tape, l_tape. apply tape_str. Qed.
Definition sg_kd (r : nat) : bytes := kd I key (sg_tape r).
Definition sg_td (r : nat) : bytes := td I t (sg_tape r).
Definition sg_s (r p : nat) : bytes := snd (outs I nk key pt t (sg_tape r) p).
Definition sg_t (r : nat) : nat -> bytes := v_ts I (sg_td r) (sg_tape r).
Definition sg_bc (r p : nat) : bytes := fst (outs I nk key pt t (sg_tape r) p).
Definition sg_h1 : bytes := hash_of H I HASH_PREFIX_1 (in1 I sg_salt (pt ++ ct) msg sg_com sg_bc sg_kd sg_td).
Record fin : Type := mkFin { fi_rs : list N; fi_P : list N; fi_ds : list N; fi_R : N; fi_m : nat; fi_entries : list bytes }.
Definition sg_open (r : nat) (x : fin) : view := opened I c pre1 s t (sg_tape r) (fi_rs x) (fi_P x) (fi_R x).
Definition sg_view (r : nat) (x : fin) : nat -> view :=
  known I c (fun k => lag c pre1 k (fi_R x)) (fun k => lag c pre2 k (fi_R x)) (fi_rs x) (fi_ds x) (sg_s r) (sg_t r) (sg_tape r).
Definition sg_proof (r : nat) (x : fin) : rep_proof :=
  mkProof (fi_entries x, fi_m x) (sg_com r (fi_m x)) (sg_kd r) (sg_td r) (fi_ds x) (v_c (sg_open r x)) (v_a (sg_open r x)) (v_b (sg_open r x)).
Definition sg_h2 (D : nat -> fin) : bytes := hash_of H I HASH_PREFIX_2 (in2 I sg_salt sg_h1 (fun r => fi_ds (D r))).
Definition sg_h3 (D : nat -> fin) : bytes :=
  hash_of H I HASH_PREFIX_3 (in3 I sg_salt (sg_h2 D) (fun r => sg_open r (D r)) (fun r => sg_view r (D r))).
Record fin_ok (r : nat) (x : fin) : Prop := mkFinOk {
  fo_rs : length (fi_rs x) = M1; fo_rsE : Forall E (fi_rs x); fo_R : E (fi_R x); fo_Rn : ~ In (fi_R x) (get_first_n_field_elements c M2);
  fo_P : P_is I c pre1 s t (sg_tape r) (fi_rs x) (fi_P x); fo_ds : delta_is I c (sg_tape r) (fi_P x) (fi_ds x);
  fo_m : fi_m x < n;
  fo_len : length (fi_entries x) = ceil_log2_nat n;
  fo_entries : forall v : bytes, In v (fi_entries x) -> str (seed_size I) v;
  fo_tree : exists t', seed_tree_rev H sg_salt r (fi_entries x, fi_m x) n = Ok t' /\
    forall j, j < n -> get_leaf t' j = Ok (if j =? fi_m x then None else Some (leaf_seed H sg_salt r (sg_seed r) n j)) }.
Record run_ok (fuel : nat) (garb : nat -> N) (D : nat -> fin) (sig : signature) : Prop := mkRunOk {
  ro_sig : sig = mkSig sg_salt sg_h1 (sg_h3 D) (map (fun r => sg_proof r (D r)) (seq 0 T));
  ro_fin : forall r, r < T -> fin_ok r (D r);
  ro_rs : phase_1_expand H I c sg_h1 = Ok (map (fun r => fi_rs (D r)) (seq 0 T));
  ro_R : phase_2_expand H I c fuel (sg_h2 D) (get_first_n_field_elements c M2) = Ok (map (fun r => fi_R (D r)) (seq 0 T));
  ro_m : phase_3_expand H I fuel garb (sg_h3 D) = Ok (map (fun r => fi_m (D r)) (seq 0 T));
  ro_reveal : forall r, r < T -> exists t0, seed_tree H sg_salt r (sg_seed r) n = Ok t0 /\ reveal_all_but t0 (fi_m (D r)) = Ok (fi_entries (D r), fi_m (D r)) }.

Lemma ct_str : str (pt_size I) ct0.
Proof.
  destruct (outs_sum I c nk OK _ _ _ _ _ KO (fun _ => zeros (tape_size I))) as [A _]; [intros; apply str_zeros|]. rewrite <- A. split.
  - apply bsum_len. intros p Hp. apply (outs_str I c nk OK _ _ _ _ _ KO); [intros; apply str_zeros|exact Hp].
  - apply bsum_str. intros p Hp. apply (outs_str I c nk OK _ _ _ _ _ KO); [intros; apply str_zeros|exact Hp].
Qed.
Lemma read_any_pk x : length x = pt_size I -> read (pt ++ x) 0 (pt_size I) = Ok pt /\ read (pt ++ x) (pt_size I) (pt_size I) = Ok x.
Proof. intros Hx. split; [apply read_app_l; apply KO|apply read_app_r; [apply KO|exact Hx]]. Qed.
Lemma aes_out_ok : aes_with_sbox_output ks key pt = Ok ((s, t), Some ct0).
Proof.
  unfold aes_with_sbox_output. rewrite (by_key I c nk OK). cbn [bind]. rewrite read_all by apply KO. cbn [bind].
  assert (Ep : aes_pt_size ks = pt_size I).
  { rewrite (io_pt _ _ _ OK). rewrite (io_ks _ _ _ OK). destruct (io_nk _ _ _ OK) as [<-|[<-|[<-|[]]]]; reflexivity. }
  rewrite Ep, read_all by apply KO. cbn [bind]. f_equal. rewrite <- (ko_run _ _ _ _ _ _ _ KO).
  destruct (io_nk _ _ _ OK) as [<-|[<-|[<-|[]]]]; reflexivity.
Qed.
Lemma known_shape l1 l2 rs ds ss ts tapes p : view_shape I (known I c l1 l2 rs ds ss ts tapes p).
Proof. unfold known, view_of, view_shape, v_a, v_b. cbn [fst snd]. rewrite !length_map_seq. split; reflexivity. Qed.

Lemma str_entries salt r m entries t' seed : str (seed_size I) seed -> m < n ->
  (exists t0, seed_tree H salt r seed n = Ok t0 /\ reveal_all_but t0 m = Ok (entries, m)) ->
  seed_tree_rev H salt r (entries, m) n = Ok t' -> forall v : bytes, In v entries -> str (seed_size I) v.
Proof.
  intros [Ls Bs] Hm (t0 & Et0 & Er) _ v Hv. pose proof (io_leaves _ _ _ OK) as HL. pose proof (io_seed _ _ _ OK) as HS. pose proof (io_wide _ _ _ OK) as HW.
  rewrite <- Ls in HS. destruct (roundtrip H salt r n seed HL HS HW m Hm) as (t1 & e1 & t2 & A & B & _ & [C D] & _ & _ & _ & _ & F & _).
  rewrite Et0 in A. injection A as <-. rewrite Er in B. injection B as <-. split; [rewrite <- Ls; apply D; exact Hv|].
  destruct (F v Hv) as [->|(q & _ & ->)]; [apply is_bytes_zeros|]. destruct (Nat.eq_dec q 0) as [->|Hq].
  - exact Bs.
  - rewrite node_seed_child by exact Hq. apply stream_bytes.
Qed.

Theorem full_run fuel garb :
  (sign_body H I c fuel garb (key, pt ++ ct) msg = OutOfFuel /\
   ((exists D, (forall r, r < T -> length (fi_rs (D r)) = M1 /\ Forall E (fi_rs (D r)) /\ P_is I c pre1 s t (sg_tape r) (fi_rs (D r)) (fi_P (D r)) /\
        delta_is I c (sg_tape r) (fi_P (D r)) (fi_ds (D r))) /\
      phase_1_expand H I c sg_h1 = Ok (map (fun r => fi_rs (D r)) (seq 0 T)) /\
      phase_2_expand H I c fuel (sg_h2 D) (get_first_n_field_elements c M2) = OutOfFuel) \/
    (exists h3, phase_3_expand H I fuel garb h3 = OutOfFuel))) \/
  exists D sig, sign_body H I c fuel garb (key, pt ++ ct) msg = Ok sig /\ run_ok fuel garb D sig.
Proof.
  pose proof (n_pos I c nk OK) as Hn. destruct (read_any_pk ct Hct) as [R1 R2]. destruct seeds_ok as [Ls Hseed].
  destruct (key_facts I c nk OK _ _ _ _ _ KO) as (Hs & Ht & _ & Hst).
  unfold sign_body. cbn [fst snd]. rewrite R1. cbn [bind]. rewrite R2. cbn [bind]. rewrite aes_out_ok. cbn [bind fst snd].
  rewrite (surjective_pairing (generate_salt_and_seeds H I (key, pt ++ ct) msg)). fold sg_salt.
  destruct (mapM_exists (fun rep => do master <- get (snd (generate_salt_and_seeds H I (key, pt ++ ct) msg)) rep; sign_setup H I sg_salt rep master)
    (fun r x => exists t0, x = (t0, map (sg_com r) (seq 0 n), map (sg_tape r) (seq 0 n)) /\ seed_tree H sg_salt r (sg_seed r) n = Ok t0 /\
       forall m, m < n -> exists entries t', reveal_all_but t0 m = Ok (entries, m) /\ seed_tree_rev H sg_salt r (entries, m) n = Ok t' /\
    length entries = ceil_log2_nat n /\ (forall v : bytes, In v entries -> length v = seed_size I) /\
    (forall j, j < n -> get_leaf t' j = Ok (if j =? m then None else Some (leaf_seed H sg_salt r (sg_seed r) n j))))
    T (mkTree [] [] [] 0 0 0, [], [])) as (setup & E1 & L1 & P1).
  { intros r Hr. rewrite (@get_ok bytes _ r []) by (rewrite Ls; exact Hr). cbn [bind]. fold (sg_seed r).
    destruct (sign_setup_ok H I c nk OK sg_salt r (sg_seed r) (io_wide _ _ _ OK) (proj1 (Hseed r Hr))) as (t0 & A & B).
    exists (t0, map (sg_com r) (seq 0 n), map (sg_tape r) (seq 0 n)). split; [exact A|]. exists t0. split; [reflexivity|]. split; [|exact B].
    unfold sign_setup in A. destruct (seed_tree H sg_salt r (sg_seed r) n) as [t1| | |]; try discriminate A. cbn [bind] in A. cbv zeta in A.
    apply bind_ok in A. destruct A as (c1 & _ & A). apply bind_ok in A. destruct A as (c2 & _ & A). injection A as -> _ _. reflexivity. }
  rewrite E1. cbn [bind]. clear E1.
  set (tree_of := fun r => fst (fst (nth r setup (mkTree [] [] [] 0 0 0, [], [])))).
  assert (Esetup : setup = map (fun r => (tree_of r, map (sg_com r) (seq 0 n), map (sg_tape r) (seq 0 n))) (seq 0 T)).
  { rewrite (list_map_nth' setup T (mkTree [] [] [] 0 0 0, [], [])) at 1 by exact L1. apply map_seq_ext. intros r Hr.
    destruct (P1 r ltac:(lia)) as (_ & t0 & A & _). unfold tree_of. rewrite A. reflexivity. }
  rewrite Esetup, !map_map. cbn [fst snd].
  rewrite (mapM_seq _ (fun r => mkRep1 (sg_kd r) (sg_td r) (map (v_keys I (sg_kd r) (sg_tape r)) (seq 0 n)) (map (sg_t r) (seq 0 n))
     (map (sg_s r) (seq 0 n)) (map (sg_bc r) (seq 0 n)))).
  2:{ intros r Hr. rewrite get_map_seq by exact Hr. cbn [bind]. apply (sign_phase1_ok I c nk OK _ _ _ _ _ KO). intros p Hp. apply sg_tape_ok. }
  cbn [bind]. rewrite !map_map. cbn [r1_key_delta r1_t_delta r1_bcast].
  unfold phase_1_commitment. pose proof (phase_1_ctx_ok I sg_salt (pt ++ ct) msg sg_com sg_bc sg_kd sg_td) as Ec1.
  match type of Ec1 with ?l = _ => match goal with |- context [phase_1_ctx ?a ?b ?c0 ?d ?e ?f ?g ?h] => change (phase_1_ctx a b c0 d e f g h) with l end end.
  rewrite Ec1. clear Ec1. cbn [bind].
  change (fst (hash_squeeze H (hash_final (ctx_of I HASH_PREFIX_1 (in1 I sg_salt (pt ++ ct) msg sg_com sg_bc sg_kd sg_td))) (digest_size I))) with sg_h1.
  destruct (phase_1_expand_ok H I ltac:(lia) c HI sg_h1) as (rss & E2 & L2 & F2). rewrite E2. cbn [bind].
  fold (xs1 I c). fold (xs2 I c). rewrite (lg_pre _ _ _ _ G1). cbn [bind]. rewrite (lg_pre _ _ _ _ G2). cbn [bind].
  destruct (last1_ok I c nk OK pre1 G1) as (E3 & _). rewrite E3. cbn [bind].
  destruct (sq_ok I c nk OK pre1 G1) as (sq & E4 & Lq & Fq & Hq). rewrite E4. cbn [bind].
  destruct (prods_ok I c nk OK pre1 G1 s t Hs Ht) as (prods & E5 & Lp & Hp). rewrite E5. cbn [bind].
  assert (Hrs : forall r, r < T -> length (nth r rss []) = M1 /\ Forall E (nth r rss [])).
  { intros r Hr. rewrite Forall_forall in F2. apply F2. apply nth_In. rewrite L2. exact Hr. }
  destruct (mapM_exists (fun rep => do rs <- get rss rep;
      do p1 <- get (map (fun r => mkRep1 (sg_kd r) (sg_td r) (map (v_keys I (sg_kd r) (sg_tape r)) (seq 0 n)) (map (sg_t r) (seq 0 n))
        (map (sg_s r) (seq 0 n)) (map (sg_bc r) (seq 0 n))) (seq 0 T)) rep;
      do tp <- get (map (fun r => map (sg_tape r) (seq 0 n)) (seq 0 T)) rep;
      sign_phase3 I c (xs2 I c) prods sq rs p1 tp)
    (fun r x => exists P ds, x = mkRep3 (map (v_pts I c (nth r rss []) (sg_s r) (sg_t r) (sg_tape r)) (seq 0 n)) P
       (map (v_P I (nth r rss []) ds (sg_tape r)) (seq 0 n)) ds /\ P_is I c pre1 s t (sg_tape r) (nth r rss []) P /\ delta_is I c (sg_tape r) P ds)
    T (mkRep3 [] [] [] [])) as (ph3 & E6 & L6 & P6).
  { intros r Hr. rewrite (get_ok rss r []) by (rewrite L2; exact Hr). cbn [bind]. rewrite !get_map_seq by exact Hr. cbn [bind].
    destruct (Hrs r Hr) as [X1 X2].
    destruct (sign_phase3_ok I c nk OK pre1 G1 s t (sg_s r) (sg_t r) (sg_tape r)) with (rs := nth r rss []) (prods := prods) (sq := sq)
      (k1 := sg_kd r) (k2 := sg_td r) (ky := map (v_keys I (sg_kd r) (sg_tape r)) (seq 0 n)) (bc := map (sg_bc r) (seq 0 n))
      as (P & ds & A & B & C); auto.
    - intros p Hpn. apply sg_tape_ok.
    - intros p Hpn. apply (outs_str I c nk OK _ _ _ _ _ KO); [intros; apply sg_tape_ok|exact Hpn].
    - intros p Hpn. apply v_ts_str; [apply (td_str I c nk OK _ _ _ _ _ KO); intros; apply sg_tape_ok|apply sg_tape_ok].
    - eexists. split; [exact A|]. exists P, ds. auto. }
  rewrite E6. cbn [bind]. clear E6.
  set (Pf := fun r => r3_P (nth r ph3 (mkRep3 [] [] [] []))). set (df := fun r => r3_delta (nth r ph3 (mkRep3 [] [] [] []))).
  assert (Hph3 : forall r, r < T -> nth r ph3 (mkRep3 [] [] [] []) = mkRep3 (map (v_pts I c (nth r rss []) (sg_s r) (sg_t r) (sg_tape r)) (seq 0 n)) (Pf r)
       (map (v_P I (nth r rss []) (df r) (sg_tape r)) (seq 0 n)) (df r) /\ P_is I c pre1 s t (sg_tape r) (nth r rss []) (Pf r) /\ delta_is I c (sg_tape r) (Pf r) (df r)).
  { intros r Hr. destruct (P6 r Hr) as (_ & P & ds & A & B & C). unfold Pf, df. rewrite A. cbn [r3_P r3_delta]. auto. }
  assert (Eph3 : map r3_delta ph3 = map df (seq 0 T)).
  { rewrite (list_map_nth' ph3 T (mkRep3 [] [] [] [])) at 1 by exact L6. rewrite map_map. reflexivity. }
  rewrite Eph3. rewrite (phase_2_commitment_ok H I c nk OK sg_salt sg_h1 df).
  2:{ intros r Hr. destruct (Hph3 r Hr) as (_ & _ & [A _]). lia. }
  cbn [bind].
  set (h2 := hash_of H I HASH_PREFIX_2 (in2 I sg_salt sg_h1 df)).
  destruct (phase_2_outcome H I ltac:(lia) c HI fuel h2) as [E7|(Rs & E7 & L7 & F7 & _)]; [apply (points_ok I c nk OK); lia|left; split; [rewrite E7; reflexivity|left]|].
  { exists (fun r => mkFin (nth r rss []) (Pf r) (df r) 0%N 0 []). cbn [fi_rs fi_P fi_ds]. split; [|split].
    - intros r Hr. destruct (Hph3 r Hr) as (_ & X5 & X6). split; [apply Hrs; exact Hr|]. split; [apply Hrs; exact Hr|]. split; [exact X5|exact X6].
    - f_equal. rewrite (list_map_nth' rss T []) at 1 by exact L2. reflexivity.
    - exact E7. }
  rewrite E7. cbn [bind].
  assert (HR : forall r, r < T -> E (nth r Rs 0%N) /\ ~ In (nth r Rs 0%N) (get_first_n_field_elements c M2)).
  { intros r Hr. rewrite Forall_forall in F7. apply F7. apply nth_In. rewrite L7. exact Hr. }
  set (D0 := fun (m : nat -> nat) (en : nat -> list bytes) r => mkFin (nth r rss []) (Pf r) (df r) (nth r Rs 0%N) (m r) (en r)).
  rewrite (mapM_seq _ (fun r => (sg_open r (D0 (fun _ => 0) (fun _ => []) r), map (sg_view r (D0 (fun _ => 0) (fun _ => []) r)) (seq 0 n)))).
  2:{ intros r Hr. rewrite (get_ok Rs r 0%N) by (rewrite L7; exact Hr). cbn [bind]. rewrite (get_ok ph3 r (mkRep3 [] [] [] [])) by (rewrite L6; exact Hr). cbn [bind].
      destruct (Hph3 r Hr) as (A & B & C). rewrite A. destruct (Hrs r Hr) as [X1 X2].
      apply (sign_phase5_ok I c nk OK pre1 pre2 G1 G2 s t Hs Ht Hst (sg_s r) (sg_t r) (sg_tape r)); auto.
      - intros; apply sg_tape_ok.
      - intros p Hpn. apply (outs_str I c nk OK _ _ _ _ _ KO); [intros; apply sg_tape_ok|exact Hpn].
      - intros p Hpn. apply v_ts_str; [apply (td_str I c nk OK _ _ _ _ _ KO); intros; apply sg_tape_ok|apply sg_tape_ok].
      - apply (outs_sum I c nk OK _ _ _ _ _ KO). intros; apply sg_tape_ok.
      - apply (ts_sum I c nk OK _ _ _ _ _ KO). intros; apply sg_tape_ok.
      - apply HR. exact Hr. }
  cbn [bind]. rewrite !map_map. cbn [fst snd]. unfold phase_3_commitment.
  rewrite (phase_3_ctx_ok I c nk OK sg_salt h2 (fun r => sg_open r (D0 (fun _ => 0) (fun _ => []) r)) (fun r => sg_view r (D0 (fun _ => 0) (fun _ => []) r))).
  2:{ intros r Hr. unfold sg_open, opened, view_shape, v_a, v_b. cbn [fst snd]. rewrite !length_map_seq. split; reflexivity. }
  2:{ intros r p Hr Hpn. apply known_shape. }
  cbn [bind].
  match goal with |- context [phase_3_expand H I fuel garb ?x] => set (h3 := x) end.
  destruct (phase_3_outcome H I ltac:(lia) fuel garb h3) as [E8|(ms & E8 & L8 & F8 & _)]; [left; split; [rewrite E8; reflexivity|right; exists h3; exact E8]|].
  rewrite E8. cbn [bind].
  assert (Hm : forall r, r < T -> nth r ms 0 < n).
  { intros r Hr. rewrite Forall_forall in F8. apply F8. apply nth_In. rewrite L8. exact Hr. }
  destruct (mapM_exists (fun rep => do t0 <- get (map tree_of (seq 0 T)) rep; do m <- get ms rep; reveal_all_but t0 m)
    (fun r x => exists entries t', x = (entries, nth r ms 0) /\ seed_tree_rev H sg_salt r (entries, nth r ms 0) n = Ok t' /\
    length entries = ceil_log2_nat n /\ (forall v : bytes, In v entries -> str (seed_size I) v) /\
    (forall j, j < n -> get_leaf t' j = Ok (if j =? nth r ms 0 then None else Some (leaf_seed H sg_salt r (sg_seed r) n j))))
    T ([], 0)) as (revs & E9 & L9 & P9).
  { intros r Hr. rewrite get_map_seq by exact Hr. cbn [bind]. rewrite (get_ok ms r 0) by (rewrite L8; exact Hr). cbn [bind].
    destruct (P1 r Hr) as (_ & t0 & A & A' & B). unfold tree_of. rewrite A. cbn [fst]. destruct (B (nth r ms 0) (Hm r Hr)) as (entries & t' & B1 & B2 & B3 & B4 & B5).
    exists (entries, nth r ms 0). split; [exact B1|]. exists entries, t'. split; [reflexivity|]. split; [exact B2|]. split; [exact B3|]. split; [|exact B5].
    apply (str_entries sg_salt r (nth r ms 0) entries t' (sg_seed r)); auto. exists t0. auto. }
  change (map (fun x => tree_of x) (seq 0 T)) with (map tree_of (seq 0 T)). rewrite E9. cbn [bind]. clear E9.
  set (D := D0 (fun r => nth r ms 0) (fun r => fst (nth r revs ([], 0)))).
  assert (EH2 : h2 = sg_h2 D) by reflexivity. assert (EH3 : h3 = sg_h3 D) by reflexivity.
  rewrite (mapM_seq _ (fun r => sg_proof r (D r))).
  - cbn [bind]. right. exists D. eexists. split; [reflexivity|]. constructor.
    + rewrite <- EH3. reflexivity.
    + intros r Hr. destruct (Hrs r Hr) as [X1 X2]. destruct (HR r Hr) as [X3 X4]. destruct (Hph3 r Hr) as (_ & X5 & X6).
      destruct (P9 r Hr) as (_ & entries & t' & B1 & B2 & B3 & B4 & B5).
      constructor; unfold D, D0; cbn [fi_rs fi_P fi_ds fi_R fi_m fi_entries]; auto; rewrite B1; cbn [fst]; auto. exists t'. auto.
    + rewrite E2. f_equal. rewrite (list_map_nth' rss T []) at 1 by exact L2. reflexivity.
    + rewrite <- EH2, E7. f_equal. rewrite (list_map_nth' Rs T 0%N) at 1 by exact L7. reflexivity.
    + rewrite <- EH3, E8. f_equal. rewrite (list_map_nth' ms T 0) at 1 by exact L8. reflexivity.
    + intros r Hr. destruct (P1 r Hr) as (_ & t0 & A & A' & _). exists t0. split; [exact A'|].
      destruct (P9 r Hr) as (Y & entries & t' & B1 & _). rewrite get_map_seq in Y by exact Hr. cbn [bind] in Y.
      rewrite (get_ok ms r 0) in Y by (rewrite L8; exact Hr). cbn [bind] in Y. unfold tree_of in Y. rewrite A in Y. cbn [fst] in Y.
      unfold D, D0. cbn [fi_m fi_entries]. rewrite Y. rewrite B1 at 1. rewrite B1. reflexivity.
  - intros r Hr. rewrite (get_ok ms r 0) by (rewrite L8; exact Hr). cbn [bind]. rewrite get_map_seq by exact Hr. cbn [bind].
    rewrite get_map_seq by (apply Hm; exact Hr). cbn [bind].
    rewrite copy_into_ok by (unfold zeros, sg_com, l_com; rewrite repeat_length; apply commit_length). cbn [bind].
    rewrite (get_ok revs r ([], 0)) by (rewrite L9; exact Hr). cbn [bind]. rewrite get_map_seq by exact Hr. cbn [bind].
    rewrite (get_ok ph3 r (mkRep3 [] [] [] [])) by (rewrite L6; exact Hr). cbn [bind]. rewrite get_map_seq by exact Hr. cbn [bind fst].
    destruct (Hph3 r Hr) as (A & B & C). destruct (HR r Hr) as [X3 X4].
    change (sg_open r (D0 (fun _ => 0) (fun _ => []) r)) with (sg_open r (D r)).
    assert (Acc : accumulate I c (v_a (sg_open r (D r))) (v_b (sg_open r (D r))) = Ok (v_c (sg_open r (D r)))) by (apply accumulate_opened; assumption).
    rewrite Acc. cbn [bind]. rewrite N.eqb_refl. unfold sg_proof. cbn [r1_key_delta r1_t_delta].
    destruct (P9 r Hr) as (_ & entries & t' & B1 & _).
    assert (Erv : nth r revs ([], 0) = (fi_entries (D r), fi_m (D r))) by (unfold D, D0; cbn [fi_entries fi_m]; rewrite B1; reflexivity).
    rewrite Erv. reflexivity.
Qed.
Theorem any_run fuel garb :
  (sign_body H I c fuel garb (key, pt ++ ct) msg = OutOfFuel /\
   ((exists h2, phase_2_expand H I c fuel h2 (get_first_n_field_elements c M2) = OutOfFuel) \/
    (exists h3, phase_3_expand H I fuel garb h3 = OutOfFuel))) \/
  exists D sig, sign_body H I c fuel garb (key, pt ++ ct) msg = Ok sig /\ run_ok fuel garb D sig.
Proof.
  destruct (full_run fuel garb) as [[A B]|A]; [left|right; exact A]. split; [exact A|]. destruct B as [(D & _ & _ & B)|B]; [left; exists (sg_h2 D); exact B|right; exact B].
Qed.

(** *** verification of the result *)
Variables (fuel : nat) (garb : nat -> N) (D : nat -> fin) (sig : signature).
Hypothesis RO : run_ok fuel garb D sig.
Definition leaf_or (r m p : nat) : bytes := if p =? m then zeros (seed_size I) else leaf_seed H sg_salt r (sg_seed r) n p.
Definition vD (r : nat) : vin := mkVin (leaf_or r (fi_m (D r))) (fi_rs (D r)) (fi_R (D r)) (fi_m (D r)) (sg_proof r (D r)).
Lemma sg_kd_str r : str ks (sg_kd r).
Proof. apply (kd_str I nk _ _ _ _ _ KO); intros; apply sg_tape_ok. Qed.
Lemma sg_td_str r : str sb (sg_td r).
Proof. apply (td_str I c nk OK _ _ _ _ _ KO); intros; apply sg_tape_ok. Qed.
Lemma sg_shape r : r < T -> proof_shape I (sg_proof r (D r)).
Proof.
  intros Hr. destruct (ro_fin _ _ _ _ RO r Hr) as [F1 F2 F3 F4 F5 F6 F7 F8 F9 F10].
  destruct (key_facts I c nk OK _ _ _ _ _ KO) as (Hs & Ht & _ & Hst).
  assert (O : Forall E (v_a (sg_open r (D r))) /\ Forall E (v_b (sg_open r (D r))) /\ E (v_c (sg_open r (D r)))).
  { apply (opened_elt I c nk OK); auto. }
  destruct O as (O1 & O2 & O3). unfold sg_proof. constructor; cbn [p_reveal p_C p_sk_delta p_t_delta p_P_delta p_P_at_R p_S_at_R p_T_at_R fst]; auto.
  - unfold sg_com, l_com. apply commit_str.
  - apply sg_kd_str.
  - apply sg_td_str.
  - split; [apply F6|]. apply (delta_elt I c nk OK pre1 s t (sg_tape r)) with (rs := fi_rs (D r)) (P := fi_P (D r)); auto. intros; apply sg_tape_ok.
  - split; [|exact O1]. unfold sg_open, opened, v_a. cbn [fst snd]. apply length_map_seq.
  - split; [|exact O2]. unfold sg_open, opened, v_b. cbn [fst snd]. apply length_map_seq.
Qed.
Lemma vD_ok r : r < T -> vin_ok H I (s_salt sig) r (vD r).
Proof.
  intros Hr. rewrite (ro_sig _ _ _ _ RO). cbn [s_salt]. pose proof (sg_shape r Hr) as S. destruct (ro_fin _ _ _ _ RO r Hr) as [F1 F2 F3 F4 F5 F6 F7 F8 F9 (t' & F10 & F11)].
  destruct seeds_ok as [_ Hseed].
  constructor; unfold vD; cbn [vi_leafs vi_rs vi_R vi_m vi_pf]; auto.
  - exists t'. split; [exact F10|]. intros p Hp. rewrite F11 by exact Hp. unfold leaf_or. destruct (p =? fi_m (D r)); reflexivity.
  - intros p Hp. unfold leaf_or. destruct (p =? fi_m (D r)); [unfold zeros; apply repeat_length|]. rewrite <- (proj1 (Hseed r Hr)). apply node_seed_length.
  - unfold leaf_or. rewrite Nat.eqb_refl. reflexivity.
Qed.
Lemma vD_tape r p : p <> fi_m (D r) -> w_tape H I sg_salt r (vD r) p = sg_tape r p.
Proof. intros Hp. unfold w_tape, vD, leaf_or, sg_tape, l_tape. cbn [vi_leafs]. apply Nat.eqb_neq in Hp. rewrite Hp. reflexivity. Qed.
Lemma vD_com r p : w_com H I sg_salt r (vD r) p = sg_com r p.
Proof.
  unfold w_com, vD, leaf_or. cbn [vi_leafs vi_m vi_pf]. unfold sg_proof. cbn [p_C]. destruct (Nat.eqb_spec p (fi_m (D r))) as [->|]; reflexivity.
Qed.
Lemma vD_out r p : p <> fi_m (D r) -> v_out I nk pt (sg_kd r) (sg_td r) (w_tape H I sg_salt r (vD r)) p = outs I nk key pt t (sg_tape r) p.
Proof. intros Hp. unfold outs, v_out, aes_out, v_keys, v_ts. rewrite vD_tape by exact Hp. reflexivity. Qed.
Lemma vD_bcast r p : r < T -> p < n -> w_bcast H I nk sg_salt pt ct0 r (vD r) p = sg_bc r p.
Proof.
  intros Hr Hp. destruct (ro_fin _ _ _ _ RO r Hr) as [F1 F2 F3 F4 F5 F6 F7 F8 F9 F10].
  unfold w_bcast, v_bcast. cbn [vD vi_m vi_pf sg_proof p_sk_delta p_t_delta]. unfold sg_bc. destruct (Nat.eqb_spec p (fi_m (D r))) as [->|Hne].
  - rewrite (bothers_ext _ _ _ _ (fun q => fst (outs I nk key pt t (sg_tape r) q))).
    + destruct (outs_sum I c nk OK _ _ _ _ _ KO (sg_tape r)) as [A _]; [intros; apply sg_tape_ok|]. rewrite <- A.
      apply (bsum_recover (pt_size I) n (fi_m (D r)) (fun q => fst (outs I nk key pt t (sg_tape r) q)) F7).
      intros q Hq. apply (outs_str I c nk OK _ _ _ _ _ KO); [intros; apply sg_tape_ok|exact Hq].
    + intros q _ Hq. f_equal. apply vD_out. exact Hq.
  - f_equal. apply vD_out. exact Hne.
Qed.
Lemma v_views_ext l1 l2 rs ds m o ss ss' ts ts' tp tp' p : (forall q, q < n -> q <> m -> ss q = ss' q) -> (forall q, q < n -> q <> m -> ts q = ts' q) ->
  (forall q, q < n -> q <> m -> tp q = tp' q) -> p < n ->
  v_views I c l1 l2 rs ds ss ts tp m o p = v_views I c l1 l2 rs ds ss' ts' tp' m o p.
Proof.
  intros A B C Hp. unfold v_views, known. destruct (Nat.eqb_spec p m) as [Hm|Hm].
  - f_equal; [f_equal|]; [apply map_seq_ext; intros j _|apply map_seq_ext; intros j _|]; f_equal; apply gothers_ext; intros q Hq Hn; unfold v_s, v_t.
    + rewrite A, C by assumption. reflexivity.
    + rewrite B, C by assumption. reflexivity.
    + rewrite C by assumption. reflexivity.
  - unfold v_s, v_t. rewrite A, B, C by assumption. reflexivity.
Qed.
Lemma vD_view r p : r < T -> p < n -> w_view H I c nk pre1 pre2 sg_salt pt r (vD r) p = sg_view r (D r) p.
Proof.
  intros Hr Hp. destruct (ro_fin _ _ _ _ RO r Hr) as [F1 F2 F3 F4 F5 F6 F7 F8 F9 F10].
  destruct (key_facts I c nk OK _ _ _ _ _ KO) as (Hs & Ht & _ & Hst).
  unfold w_view, sg_view. change (vi_rs (vD r)) with (fi_rs (D r)). change (vi_R (vD r)) with (fi_R (D r)). change (vi_m (vD r)) with (fi_m (D r)).
  change (p_P_delta (vi_pf (vD r))) with (fi_ds (D r)). change (w_open (vD r)) with (sg_open r (D r)).
  rewrite (v_views_ext _ _ _ _ _ _ _ (sg_s r) _ (sg_t r) _ (sg_tape r));
    [|intros q Hq Hne; unfold w_s, sg_s; f_equal; apply vD_out; exact Hne
     |intros q Hq Hne; unfold w_t, sg_t, v_ts; cbn [vD vi_pf sg_proof p_t_delta]; rewrite vD_tape by exact Hne; reflexivity
     |intros q Hq Hne; apply vD_tape; exact Hne|exact Hp].
  apply (v_views_eq I c nk OK pre1 pre2 G1 G2 s t Hs Ht Hst (sg_s r) (sg_t r) (sg_tape r)); auto.
  - intros; apply sg_tape_ok.
  - intros q Hq. apply (outs_str I c nk OK _ _ _ _ _ KO); [intros; apply sg_tape_ok|exact Hq].
  - intros q Hq. apply v_ts_str; [apply sg_td_str|apply sg_tape_ok].
  - apply (outs_sum I c nk OK _ _ _ _ _ KO). intros; apply sg_tape_ok.
  - apply (ts_sum I c nk OK _ _ _ _ _ KO). intros; apply sg_tape_ok.
Qed.
Lemma part1_ext com com' bc bc' k k' : (forall p, p < n -> com p = com' p) -> (forall p, p < n -> bc p = bc' p) -> part1 I com bc k k' = part1 I com' bc' k k'.
Proof. intros A B. unfold part1. f_equal. f_equal. apply map_seq_ext. intros p Hp. rewrite A, B by exact (proj2 Hp). reflexivity. Qed.
Lemma part3_ext o v v' : (forall p, p < n -> v p = v' p) -> part3 I o v = part3 I o v'.
Proof.
  intros A. unfold part3. f_equal. f_equal; f_equal; apply map_seq_ext.
  - intros p Hp. rewrite A by exact (proj2 Hp). reflexivity.
  - intros j Hj. do 2 f_equal. f_equal. apply map_seq_ext. intros p Hp. rewrite A by exact (proj2 Hp). reflexivity.
Qed.
Lemma again_R extra : phase_2_expand H I c (fuel + extra) (sg_h2 D) (get_first_n_field_elements c M2) = Ok (map (fun r => fi_R (D r)) (seq 0 T)).
Proof.
  pose proof (n_pos I c nk OK) as Hn. destruct (phase_2_outcome H I ltac:(lia) c HI fuel (sg_h2 D)) as [X|(Rs & X & _ & _ & Y)]; [apply (points_ok I c nk OK); lia| |];
    rewrite (ro_R _ _ _ _ RO) in X; [discriminate X|]. injection X as <-. apply Y.
Qed.
Lemma again_m extra garb' : phase_3_expand H I (fuel + extra) garb' (sg_h3 D) = Ok (map (fun r => fi_m (D r)) (seq 0 T)).
Proof.
  pose proof (n_pos I c nk OK) as Hn. rewrite (phase_3_garb H I ltac:(lia) _ garb' garb). destruct (phase_3_outcome H I ltac:(lia) fuel garb (sg_h3 D)) as [X|(ms & X & _ & _ & Y)];
    rewrite (ro_m _ _ _ _ RO) in X; [discriminate X|]. injection X as <-. apply Y.
Qed.
Lemma again_1 pk' msg' : in1 I sg_salt pk' msg' (fun r => w_com H I sg_salt r (vD r)) (fun r => w_bcast H I nk sg_salt pt ct0 r (vD r))
    (fun r => p_sk_delta (vi_pf (vD r))) (fun r => p_t_delta (vi_pf (vD r))) = in1 I sg_salt pk' msg' sg_com sg_bc sg_kd sg_td.
Proof. unfold in1. do 4 f_equal. apply map_seq_ext. intros r Hr. apply part1_ext; intros p Hp; [apply vD_com|apply vD_bcast; [lia|exact Hp]]. Qed.
Lemma again_3 : in3 I sg_salt (hash_of H I HASH_PREFIX_2 (in2 I sg_salt sg_h1 (fun r => p_P_delta (vi_pf (vD r)))))
    (fun r => w_open (vD r)) (fun r => w_view H I c nk pre1 pre2 sg_salt pt r (vD r)) = in3 I sg_salt (sg_h2 D) (fun r => sg_open r (D r)) (fun r => sg_view r (D r)).
Proof.
  change (hash_of H I HASH_PREFIX_2 (in2 I sg_salt sg_h1 (fun r => p_P_delta (vi_pf (vD r))))) with (sg_h2 D).
  unfold in3. apply f_equal. apply f_equal. apply f_equal. apply map_seq_ext. intros r Hr.
  change (w_open (vD r)) with (sg_open r (D r)). apply part3_ext. intros p Hp. apply vD_view; [lia|exact Hp].
Qed.
(** verification with any ciphertext in the public key and any message *)
Theorem any_verify x extra garb' msg' : length x = pt_size I ->
  verify_body H I c (fuel + extra) garb' (pt ++ x) sig msg' =
  Ok (bytes_eqb (hash_of H I HASH_PREFIX_1 (in1 I sg_salt (pt ++ x) msg' (fun r => w_com H I sg_salt r (vD r)) (fun r => w_bcast H I nk sg_salt pt x r (vD r))
       (fun r => p_sk_delta (vi_pf (vD r))) (fun r => p_t_delta (vi_pf (vD r))))) sg_h1).
Proof.
  intros Hx. destruct (read_any_pk x Hx) as [R1 R2]. pose proof (ro_sig _ _ _ _ RO) as ES.
  rewrite (verify_body_ok H I c nk OK pre1 pre2 (fuel + extra) garb' (pt ++ x) pt x sig msg' vD); auto.
  - rewrite ES. cbn [s_salt s_h1 s_h3]. rewrite again_3. fold (sg_h3 D).
    rewrite (proj2 (bytes_eqb_eq (sg_h3 D) (sg_h3 D)) eq_refl). rewrite andb_true_r. f_equal. match goal with |- (?a && _)%bool = _ => rewrite <- (andb_true_r a) at 2; f_equal end.
    apply forallb_forall. intros r Hr. apply in_seq in Hr. destruct (ro_fin _ _ _ _ RO r ltac:(lia)) as [F1 F2 F3 F4 F5 F6 F7 F8 F9 F10].
    unfold rel_holds. cbn [vD vi_pf sg_proof p_S_at_R p_T_at_R p_P_at_R]. apply N.eqb_eq.
    pose proof (accumulate_opened I c pre1 s t (sg_tape r) (fi_rs (D r)) (fi_P (D r)) (fi_R (D r)) F5 F3) as Acc. fold (sg_open r (D r)) in Acc.
    rewrite (accumulate_ok I c) in Acc by (unfold sg_open, opened, v_a, v_b; cbn [fst snd]; apply length_map_seq). injection Acc as Acc. exact Acc.
  - apply KO.
  - rewrite ES. reflexivity.
  - intros r Hr. apply vD_ok. exact Hr.
  - rewrite ES. apply stream_length.
  - rewrite ES. apply stream_length.
  - rewrite ES. cbn [s_h1]. exact (ro_rs _ _ _ _ RO).
  - rewrite ES. cbn [s_h1 s_salt]. apply again_R.
  - rewrite ES. cbn [s_h3]. apply again_m.
Qed.
(** what verification with the public key that belongs to the key hashes *)
Theorem any_contexts extra garb' msg' : exists ctx3, verify_contexts H I c (fuel + extra) garb' (pt ++ ct0) sig msg' =
  Ok (ctx_of I HASH_PREFIX_1 (in1 I sg_salt (pt ++ ct0) msg' sg_com sg_bc sg_kd sg_td), ctx3).
Proof.
  destruct (read_any_pk ct0 (proj1 ct_str)) as [R1 R2]. pose proof (ro_sig _ _ _ _ RO) as ES. eexists.
  rewrite (verify_contexts_ok H I c nk OK pre1 pre2 (fuel + extra) garb' (pt ++ ct0) pt ct0 sig msg' vD); auto.
  - rewrite ES. cbn [s_salt]. rewrite again_1. reflexivity.
  - apply KO.
  - rewrite ES. reflexivity.
  - intros r Hr. apply vD_ok. exact Hr.
  - rewrite ES. cbn [s_h1]. exact (ro_rs _ _ _ _ RO).
  - rewrite ES. cbn [s_h1 s_salt]. apply again_R.
  - rewrite ES. cbn [s_h3]. apply again_m.
Qed.
End Run.

(** *** the key pair consists of matching halves *)
Section Match.
Variables (H : oracle) (I : instance) (c : fctx) (nk : nat).
Hypothesis OK : inst_ok I c nk.
Variables (pre1 pre2 : list (list N)).
Hypothesis G1 : lagr (lambda I) c (xs1 I c) pre1.
Hypothesis G2 : lagr (lambda I) c (xs2 I c) pre2.
Variables (key pt ct s t : bytes).
Hypothesis KO : key_ok I nk key pt ct s t.
Lemma ct_len : length ct = pt_size I. Proof. apply (ct_str I c nk OK key pt ct s t KO). Qed.
Lemma read_pk : read (pt ++ ct) 0 (pt_size I) = Ok pt /\ read (pt ++ ct) (pt_size I) (pt_size I) = Ok ct.
Proof. apply (read_any_pk I nk key pt ct s t KO ct ct_len). Qed.
Variable msg : bytes.
Theorem sign_run fuel garb :
  (sign_body H I c fuel garb (key, pt ++ ct) msg = OutOfFuel /\
   ((exists h2, phase_2_expand H I c fuel h2 (get_first_n_field_elements c (m2 I)) = OutOfFuel) \/
    (exists h3, phase_3_expand H I fuel garb h3 = OutOfFuel))) \/
  exists D sig, sign_body H I c fuel garb (key, pt ++ ct) msg = Ok sig /\ run_ok H I c nk pre1 pre2 key pt ct s t msg fuel garb D sig.
Proof. exact (any_run H I c nk OK pre1 pre2 G1 G2 key pt ct ct s t KO ct_len msg fuel garb). Qed.
Theorem accepted fuel garb D sig : run_ok H I c nk pre1 pre2 key pt ct s t msg fuel garb D sig ->
  forall extra garb', verify_body H I c (fuel + extra) garb' (pt ++ ct) sig msg = Ok true.
Proof.
  intros RO extra garb'. rewrite (any_verify H I c nk OK pre1 pre2 G1 G2 key pt ct ct s t KO ct_len msg fuel garb D sig RO ct extra garb' msg ct_len).
  rewrite (again_1 H I c nk OK pre1 pre2 key pt ct ct s t KO ct_len msg fuel garb D sig RO). fold (sg_h1 H I nk key pt ct t msg). f_equal. apply bytes_eqb_eq. reflexivity.
Qed.
End Match.
