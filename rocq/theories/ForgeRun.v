(** The forger of Forge: what it returns, and that verification accepts it. *)
From Coq Require Import Arith NArith List Bool Lia.
From Verif Require Import Prelude FieldModel FieldSpec FieldApi FieldLin PolyModel Instances HashModel TreeModel TreeSpec TreeApi TreeRev AesSpec AesModel AesBase AesApi AesShares BanquetModel ContainerModel ListSum BanquetHash BanquetPure BanquetVerify BanquetSign BanquetPoly BanquetCtx BanquetRun Serialize AlterFacts Forge ForgeAes.
Import ListNotations.

Section Run.
Variables (H : oracle) (I : instance) (c : fctx) (nk : nat).
Hypothesis OK : inst_ok I c nk.
Let HI := io_field _ _ _ OK.
Notation E := (elt (lambda I)).
Notation ks := (key_size (i_aes I)).
Notation sb := (num_sboxes (i_aes I)).
Notation lam := (lambda I).
Notation n := (num_parties I).
Notation M1 := (m1 I).
Notation M2 := (m2 I).
Notation T := (num_rounds I).
Variables (pre1 pre2 : list (list N)).
Hypothesis G1 : lagr lam c (xs1 I c) pre1.
Hypothesis G2 : lagr lam c (xs2 I c) pre2.
Notation L1 R := (fun k => lag c pre1 k R).
Notation L2 R := (fun k => lag c pre2 k R).

(** *** one repetition with any S-box outputs *)
Variables (key pt ct s t : bytes).
Hypothesis Hk : str ks key.
Hypothesis Hp : str (pt_size I) pt.
Hypothesis Ht : str sb t.
Hypothesis PO : Pn nk true key t pt = (ct, s).

Section Rep.
Variable tapes : nat -> bytes.
Hypothesis HT : forall p, p < n -> tape_ok I (tapes p).
Lemma c_kd_str : str ks (kd I key tapes).
Proof. apply str_xorl; [exact Hk|]. apply bsum_str. intros p Hpn. apply t_key_str. auto. Qed.
Lemma c_td_str : str sb (td I t tapes).
Proof. apply str_xorl; [exact Ht|]. apply bsum_str. intros p Hpn. apply t_out_str. auto. Qed.
Lemma c_keys_sum : bsum ks n (v_keys I (kd I key tapes) tapes) = key.
Proof.
  pose proof (n_pos I c nk OK) as Hn. assert (K : forall p, p < n -> length (t_key I (tapes p)) = ks) by (intros p Hpn; apply t_key_str; auto).
  rewrite (bsum_ext _ _ _ (fun p => if p =? 0 then xorl (kd I key tapes) (t_key I (tapes 0)) else t_key I (tapes p))).
  - rewrite (bsum_first ks n (fun p => t_key I (tapes p))) by (try lia; auto; apply c_kd_str). unfold kd. apply xorl_cancel_r.
    rewrite bsum_len by exact K. apply Hk.
  - intros p _. unfold v_keys, fixed. destruct (Nat.eqb_spec p 0) as [->|]; reflexivity.
Qed.
Lemma c_ts_sum : bsum sb n (v_ts I (td I t tapes) tapes) = t.
Proof.
  pose proof (n_pos I c nk OK) as Hn. assert (K : forall p, p < n -> length (t_out I (tapes p)) = sb) by (intros p Hpn; apply t_out_str; auto).
  rewrite (bsum_ext _ _ _ (fun p => if p =? 0 then xorl (td I t tapes) (t_out I (tapes 0)) else t_out I (tapes p))).
  - rewrite (bsum_first sb n (fun p => t_out I (tapes p))) by (try lia; auto; apply c_td_str). unfold td. apply xorl_cancel_r.
    rewrite bsum_len by exact K. apply Ht.
  - intros p _. unfold v_ts, fixed. destruct (Nat.eqb_spec p 0) as [->|]; reflexivity.
Qed.
Lemma c_outs_str p : p < n -> str (pt_size I) (fst (outs I nk key pt t tapes p)) /\ str sb (snd (outs I nk key pt t tapes p)).
Proof. intros Hpn. apply (v_out_str I c nk OK); auto; [apply c_kd_str|apply c_td_str]. Qed.
Lemma c_outs_sum : bsum (pt_size I) n (fun p => fst (outs I nk key pt t tapes p)) = ct.
Proof.
  pose proof (n_pos I c nk OK) as Hn.
  assert (SI : shares_in nk (map (v_keys I (kd I key tapes) tapes) (seq 0 n)) (map (v_ts I (td I t tapes) tapes) (seq 0 n)) pt).
  { split; [apply (io_nk _ _ _ OK)|]. split; [destruct n; [lia|discriminate]|]. rewrite !length_map_seq. split; [reflexivity|].
    rewrite <- (io_ks _ _ _ OK), <- (io_sb _ _ _ OK), <- (io_pt _ _ _ OK). repeat split; try apply Hp;
    apply Forall_map, Forall_forall; intros p Hpn; apply in_seq in Hpn; [apply v_keys_str|apply v_ts_str]; try apply c_kd_str; try apply c_td_str; apply HT; lia. }
  destruct (shares_run nk _ _ pt SI) as (rs & E1 & _ & _ & E2).
  rewrite <- (aes_shares_eq I c nk OK), <- (io_sb _ _ _ OK) in E1.
  destruct (shares_ok I c nk OK pt (kd I key tapes) (td I t tapes) tapes Hp c_kd_str c_td_str HT) as (_ & _ & E4). rewrite E4 in E1. injection E1 as <-.
  rewrite <- (io_ks _ _ _ OK), <- (io_sb _ _ _ OK) in E2. fold (bsum ks n (v_keys I (kd I key tapes) tapes)) in E2. rewrite c_keys_sum in E2.
  fold (bsum sb n (v_ts I (td I t tapes) tapes)) in E2. rewrite c_ts_sum, PO in E2. injection E2 as E2 _.
  unfold ct_of in E2. rewrite map_map in E2. rewrite <- (io_pt _ _ _ OK) in E2. symmetry. exact E2.
Qed.
Lemma c_phase1_ok : sign_phase1 I key t pt (map tapes (seq 0 n)) =
  Ok (mkRep1 (kd I key tapes) (td I t tapes) (map (v_keys I (kd I key tapes) tapes) (seq 0 n)) (map (v_ts I (td I t tapes) tapes) (seq 0 n))
       (map (fun p => snd (outs I nk key pt t tapes p)) (seq 0 n)) (map (fun p => fst (outs I nk key pt t tapes p)) (seq 0 n))).
Proof.
  unfold sign_phase1.
  rewrite (share_secret_ok I c nk OK tapes HT key ks 0 (fun _ => [])); [|exact Hk|unfold tape_size; lia|intros p Hpn; apply t_key_str; auto]. cbv zeta. cbn [bind].
  rewrite (share_secret_ok I c nk OK tapes HT t sb ks (fun _ => [])); [|exact Ht|unfold tape_size; lia|intros p Hpn; apply t_out_str; auto]. cbv zeta. cbn [bind].
  destruct (shares_ok I c nk OK pt (kd I key tapes) (td I t tapes) tapes Hp c_kd_str c_td_str HT) as (_ & _ & E4).
  unfold outs. unfold v_keys, v_ts, t_key, t_out, kd, td in E4 |- *. unfold t_key, t_out in E4 |- *.
  match type of E4 with ?x = _ => match goal with |- bind ?y _ = _ => change y with x; rewrite E4 end end.
  cbn [bind]. rewrite !map_map. reflexivity.
Qed.

(** the opened values: the sums of the parties' shares *)
Variables (rs : list N) (ssh tsh : nat -> bytes).
Hypothesis Lr : length rs = M1.
Hypothesis Er : Forall E rs.
Hypothesis Hss : forall p, p < n -> str sb (ssh p).
Hypothesis Hts : forall p, p < n -> str sb (tsh p).
Definition osum (ds : list N) (R : N) : view :=
  ((map (fun j => gsum n (fun p => inner c (M2 + 1) (L1 R) (v_s I c rs ssh tapes p j))) (seq 0 M1),
    map (fun j => gsum n (fun p => inner c (M2 + 1) (L1 R) (v_t I c tsh tapes p j))) (seq 0 M1)),
   gsum n (fun p => inner c (2 * M2 + 1) (L2 R) (P_adj I rs ds p (tapes p)))).
Lemma c_phase5_ok P ds ds' R : E R ->
  sign_phase5 I c pre1 pre2 R (mkRep3 (map (v_pts I c rs ssh tsh tapes) (seq 0 n)) P (map (v_P I rs ds tapes) (seq 0 n)) ds') =
  Ok (osum ds R, map (known I c (L1 R) (L2 R) rs ds ssh tsh tapes) (seq 0 n)).
Proof.
  intros HR. unfold sign_phase5. cbn [r3_pts r3_shares].
  pose proof (lagrange_at_ok I c nk OK _ _ R G1 HR) as X1. pose proof (lagrange_at_ok I c nk OK _ _ R G2 HR) as X2.
  rewrite (proj1 (proj2 (xs1_ok I c nk OK))) in X1. rewrite (proj1 (proj2 (xs2_ok I c nk OK))) in X2. rewrite X1. cbn [bind]. rewrite X2. cbn [bind].
  rewrite (mapM_seq _ (known I c (L1 R) (L2 R) rs ds ssh tsh tapes)).
  2:{ intros p Hpn. rewrite !get_map_seq by exact Hpn. cbn [bind]. unfold v_pts, pts_of, v_P. rewrite (party_view_ok I c nk OK). reflexivity. }
  cbn [bind].
  rewrite (mapM_seq _ (fun j => gsum n (fun p => inner c (M2 + 1) (L1 R) (v_s I c rs ssh tapes p j)))).
  2:{ intros j Hj. apply (fold_views I rs Lr). intros p Hpn. unfold known, view_of, v_a. cbn [fst snd]. rewrite get_map_seq by exact Hj. reflexivity. }
  cbn [bind].
  rewrite (mapM_seq _ (fun j => gsum n (fun p => inner c (M2 + 1) (L1 R) (v_t I c tsh tapes p j)))).
  2:{ intros j Hj. apply (fold_views I rs Lr). intros p Hpn. unfold known, view_of, v_b. cbn [fst snd]. rewrite get_map_seq by exact Hj. reflexivity. }
  cbn [bind]. do 2 f_equal. unfold osum. f_equal. rewrite (fold_left_xor v_c). rewrite map_map, N.lxor_0_l. reflexivity.
Qed.
Lemma osum_elt ds R : E R -> Forall E (v_a (osum ds R)) /\ Forall E (v_b (osum ds R)) /\ E (v_c (osum ds R)).
Proof.
  intros HR. unfold osum, v_a, v_b, v_c. cbn [fst snd]. split; [|split].
  - apply Forall_map, Forall_forall. intros j _. apply (E_gsum lam c HI). intros. apply (inner_elt I c nk OK).
  - apply Forall_map, Forall_forall. intros j _. apply (E_gsum lam c HI). intros. apply (inner_elt I c nk OK).
  - apply (E_gsum lam c HI). intros. apply (inner_elt I c nk OK).
Qed.
Lemma c_views_eq ds R m p : m < n -> p < n ->
  v_views I c (L1 R) (L2 R) rs ds ssh tsh tapes m (osum ds R) p = known I c (L1 R) (L2 R) rs ds ssh tsh tapes p.
Proof.
  intros Hm Hpn. unfold v_views. destruct (Nat.eqb_spec p m) as [->|]; [|reflexivity]. unfold known, view_of. f_equal; [f_equal|].
  - apply map_seq_ext. intros j Hj. unfold osum, v_a. cbn [fst snd]. rewrite nth_map_seq by lia. apply gsum_recover. exact Hm.
  - apply map_seq_ext. intros j Hj. unfold osum, v_b. cbn [fst snd]. rewrite nth_map_seq by lia. apply gsum_recover. exact Hm.
  - unfold osum, v_c. cbn [fst snd]. apply gsum_recover. exact Hm.
Qed.
Lemma v_P_nil p : v_P I rs [] tapes p = map (P_pt I rs p (tapes p)) (seq 0 (2 * M2 + 1)).
Proof.
  unfold v_P. apply map_seq_ext. intros k _. unfold P_adj. destruct (_ && _); [|reflexivity].
  replace (nth (k - M2) (@nil N) 0%N) with 0%N by (destruct (k - M2); reflexivity). apply N.lxor_0_r.
Qed.
(** the last correction enters linearly *)
Definition one_delta (d : N) : list N := repeat 0%N M2 ++ [d].
Lemma one_delta_len d : length (one_delta d) = M2 + 1.
Proof. unfold one_delta. rewrite app_length, repeat_length. reflexivity. Qed.
Lemma one_delta_E d : E d -> Forall E (one_delta d).
Proof.
  intros Hd. unfold one_delta. apply Forall_app. split; [|constructor; [exact Hd|constructor]]. apply Forall_forall. intros x Hx. apply repeat_spec in Hx. subst x. apply (E_0 lam c HI).
Qed.
Lemma one_delta_nth d k : k <= M2 -> nth k (one_delta d) 0%N = if k =? M2 then d else 0%N.
Proof.
  intros Hk0. clear - Hk0. unfold one_delta. destruct (Nat.eqb_spec k M2) as [->|Hne].
  - rewrite app_nth2 by (rewrite repeat_length; lia). rewrite repeat_length, Nat.sub_diag. reflexivity.
  - rewrite app_nth1 by (rewrite repeat_length; lia). apply nth_repeat.
Qed.
Lemma P_adj_one d p tape k : k < 2 * M2 + 1 ->
  P_adj I rs (one_delta d) p tape k = N.lxor (P_adj I rs [] p tape k) (if (p =? 0) && (k =? 2 * M2) then d else 0%N).
Proof.
  intros Hk0. unfold P_adj. destruct (p =? 0); cbn [andb]; [|rewrite N.lxor_0_r; reflexivity]. destruct (Nat.ltb_spec k M2); cbn [negb].
  - destruct (Nat.eqb_spec k (2 * M2)); [|rewrite N.lxor_0_r; reflexivity]. pose proof (io_m2 _ _ _ OK). lia.
  - replace (nth (k - M2) (@nil N) 0%N) with 0%N by (destruct (k - M2); reflexivity). rewrite one_delta_nth by lia. unfold gadd. rewrite N.lxor_0_r.
    destruct (Nat.eqb_spec (k - M2) M2), (Nat.eqb_spec k (2 * M2)); try lia; reflexivity.
Qed.
Lemma c_linear d R : E R -> E d -> v_c (osum (one_delta d) R) = N.lxor (v_c (osum [] R)) (gmul c (lag c pre2 (2 * M2) R) d).
Proof.
  intros HR Hd. pose proof (n_pos I c nk OK) as Hn. unfold osum, v_c. cbn [fst snd].
  assert (EL : forall k, E (lag c pre2 k R)) by (intros; apply (lg_elt _ _ _ _ G2); exact HR).
  rewrite (gsum_ext n _ (fun p => N.lxor (inner c (2 * M2 + 1) (L2 R) (P_adj I rs [] p (tapes p))) (if p =? 0 then gmul c (lag c pre2 (2 * M2) R) d else 0%N))).
  - rewrite gsum_add. f_equal. rewrite (gsum_one n _ 0); [reflexivity|lia|]. intros i _ Hi. apply Nat.eqb_neq in Hi. rewrite Hi. reflexivity.
  - intros p Hpn. unfold inner.
    rewrite (gsum_ext (2 * M2 + 1) _ (fun k => N.lxor (gmul c (lag c pre2 k R) (P_adj I rs [] p (tapes p) k)) (if (p =? 0) && (k =? 2 * M2) then gmul c (lag c pre2 k R) d else 0%N))).
    + rewrite gsum_add. f_equal. destruct (p =? 0); cbn [andb]; [|apply gsum_zero]. rewrite (gsum_one _ _ (2 * M2)); [rewrite Nat.eqb_refl; reflexivity|lia|].
      intros i _ Hi. apply Nat.eqb_neq in Hi. rewrite Hi. reflexivity.
    + intros k Hk0. rewrite P_adj_one by exact Hk0.
      assert (EP : E (P_adj I rs [] p (tapes p) k)) by (apply (P_adj_elt I c nk OK); auto).
      change (N.lxor (P_adj I rs [] p (tapes p) k)) with (gadd (P_adj I rs [] p (tapes p) k)). rewrite (g_distr_r lam c HI); auto.
      * unfold gadd. f_equal. destruct (_ && _); [reflexivity|]. apply (g_mul_0_r lam c HI).
      * destruct (_ && _); [exact Hd|apply (E_0 lam c HI)].
Qed.
Definition want (R : N) : N := gsum M1 (fun j => gmul c (nth j (v_a (osum [] R)) 0%N) (nth j (v_b (osum [] R)) 0%N)).
Lemma want_elt R : E (want R).
Proof. apply (E_gsum lam c HI). intros. apply (E_mul lam c HI). Qed.
(** what the forger computes for a repetition once it knows R *)
Lemma forge_rep_ok R : E R -> exists d, E d /\
  forge_rep I c pre1 pre2 R (map (v_pts I c rs ssh tsh tapes) (seq 0 n), map (fun p => map (P_pt I rs p (tapes p)) (seq 0 (2 * M2 + 1))) (seq 0 n)) =
  Ok (one_delta d, (osum (one_delta d) R, map (known I c (L1 R) (L2 R) rs (one_delta d) ssh tsh tapes) (seq 0 n))) /\
  (lag c pre2 (2 * M2) R <> 0%N ->
   gsum M1 (fun j => gmul c (nth j (v_a (osum (one_delta d) R)) 0%N) (nth j (v_b (osum (one_delta d) R)) 0%N)) = v_c (osum (one_delta d) R)).
Proof.
  intros HR. pose proof (lg_elt _ _ _ _ G2 (2 * M2) R HR) as EL. destruct (api_inverse lam c HI BinNums.Z0 _ EL) as (li & _ & Eli & Li & _ & Linv).
  set (d := gmul c li (gadd (want R) (v_c (osum [] R)))). exists d. assert (Hd : E d) by apply (E_mul lam c HI). split; [exact Hd|].
  assert (Eunadj : map (fun p => map (P_pt I rs p (tapes p)) (seq 0 (2 * M2 + 1))) (seq 0 n) = map (v_P I rs [] tapes) (seq 0 n)).
  { apply map_seq_ext. intros p _. symmetry. apply v_P_nil. }
  split.
  - unfold forge_rep. cbn [fst snd].
    pose proof (c_phase5_ok [] [] [] R HR) as C0. rewrite <- Eunadj in C0. rewrite C0. cbn [bind fst].
    rewrite (accumulate_ok I c) by (unfold osum, v_a, v_b; cbn [fst snd]; apply length_map_seq). cbn [bind]. fold (want R).
    pose proof (lagrange_at_ok I c nk OK _ _ R G2 HR) as X2. rewrite (proj1 (proj2 (xs2_ok I c nk OK))) in X2. rewrite X2. cbn [bind].
    rewrite get_map_seq by lia. cbn [bind]. rewrite Eli. cbn [bind]. cbv zeta. fold d. fold (one_delta d).
    rewrite (adjust_shares I c nk OK) by apply one_delta_len. cbn [bind]. fold (v_P I rs (one_delta d) tapes).
    change (fun p => map (P_adj I rs (one_delta d) p (tapes p)) (seq 0 (2 * M2 + 1))) with (v_P I rs (one_delta d) tapes).
    rewrite (c_phase5_ok [] (one_delta d) (one_delta d) R HR). reflexivity.
  - intros Hne. rewrite c_linear by assumption. change (v_a (osum (one_delta d) R)) with (v_a (osum [] R)). change (v_b (osum (one_delta d) R)) with (v_b (osum [] R)). fold (want R).
    pose proof (osum_elt [] R HR) as (_ & _ & EC). pose proof (want_elt R) as EW.
    unfold d. rewrite <- (g_assoc lam c HI) by (auto; apply (E_add lam c HI); auto). rewrite Linv by exact Hne. rewrite (g_mul_1_l lam c HI) by (apply (E_add lam c HI); auto).
    unfold gadd. rewrite (N.lxor_comm (want R)), <- N.lxor_assoc, N.lxor_nilpotent, N.lxor_0_l. reflexivity.
Qed.
End Rep.

(** *** the whole run *)
Variables (salt msg : bytes) (seeds : list bytes).
Hypothesis Ls : length seeds = T.
Hypothesis Hseeds : Forall (fun x : bytes => str (seed_size I) x) seeds.
Notation pk := (pt ++ ct).
Definition fg_seed (r : nat) : bytes := nth r seeds [].
Lemma fg_seed_str r : r < T -> str (seed_size I) (fg_seed r).
Proof. intros Hr. rewrite Forall_forall in Hseeds. apply Hseeds. apply nth_In. rewrite Ls. exact Hr. Qed.
Definition fg_com (r : nat) : nat -> bytes := l_com H I salt (fg_seed r) r.
Definition fg_tape (r : nat) : nat -> bytes := l_tape H I salt (fg_seed r) r.
Lemma fg_tape_ok r p : tape_ok I (fg_tape r p). Proof. unfold fg_tape, l_tape. apply tape_str. Qed.
Definition fg_kd (r : nat) : bytes := kd I key (fg_tape r).
Definition fg_td (r : nat) : bytes := td I t (fg_tape r).
Definition fg_s (r p : nat) : bytes := snd (outs I nk key pt t (fg_tape r) p).
Definition fg_t (r : nat) : nat -> bytes := v_ts I (fg_td r) (fg_tape r).
Definition fg_bc (r p : nat) : bytes := fst (outs I nk key pt t (fg_tape r) p).
Definition fg_h1 : bytes := hash_of H I HASH_PREFIX_1 (in1 I salt pk msg fg_com fg_bc fg_kd fg_td).
Definition fg_h2 : bytes := hash_of H I HASH_PREFIX_2 (in2 I salt fg_h1 (fun _ => repeat 0%N (M2 + 1))).
Definition fg_p1 (r : nat) : rep1 := mkRep1 (fg_kd r) (fg_td r) (map (v_keys I (fg_kd r) (fg_tape r)) (seq 0 n)) (map (fg_t r) (seq 0 n))
     (map (fg_s r) (seq 0 n)) (map (fg_bc r) (seq 0 n)).
Definition tree_good (r : nat) (t0 : tree) : Prop := seed_tree H salt r (fg_seed r) n = Ok t0 /\
  forall m, m < n -> exists entries t', reveal_all_but t0 m = Ok (entries, m) /\ seed_tree_rev H salt r (entries, m) n = Ok t' /\
    length entries = ceil_log2_nat n /\ (forall v : bytes, In v entries -> length v = seed_size I) /\
    (forall j, j < n -> get_leaf t' j = Ok (if j =? m then None else Some (leaf_seed H salt r (fg_seed r) n j))).
Hypothesis Hct : str (pt_size I) ct.
Hypothesis Ekey : key = zeros ks.
Hypothesis Efake : fake_t I pt ct = Ok t.

Lemma commit_run fuel :
  (forge_commit H I c fuel pk msg salt seeds = OutOfFuel /\ phase_2_expand H I c fuel fg_h2 (get_first_n_field_elements c M2) = OutOfFuel) \/
  exists trees rss Rs, forge_commit H I c fuel pk msg salt seeds =
    Ok (mkCommitted (map trees (seq 0 T)) (map (fun r => map (fg_com r) (seq 0 n)) (seq 0 T)) (map fg_p1 (seq 0 T)) fg_h1 rss (map (fun r => map (fg_tape r) (seq 0 n)) (seq 0 T)) fg_h2 Rs) /\
    (forall r, r < T -> tree_good r (trees r)) /\
    phase_1_expand H I c fg_h1 = Ok rss /\ length rss = T /\ (forall r, r < T -> length (nth r rss []) = M1 /\ Forall E (nth r rss [])) /\
    phase_2_expand H I c fuel fg_h2 (get_first_n_field_elements c M2) = Ok Rs /\ length Rs = T /\ (forall r, r < T -> E (nth r Rs 0%N)).
Proof.
  pose proof (n_pos I c nk OK) as Hn.
  unfold forge_commit. rewrite (read_app_l pt ct) by apply Hp. cbn [bind]. rewrite (read_app_r pt ct _ (pt_size I)) by (apply Hp || apply Hct). cbn [bind].
  rewrite Efake. cbn [bind].
  destruct (mapM_exists (fun rep => do master <- get seeds rep; sign_setup H I salt rep master)
    (fun r x => exists t0, x = (t0, map (fg_com r) (seq 0 n), map (fg_tape r) (seq 0 n)) /\ tree_good r t0)
    T (mkTree [] [] [] 0 0 0, [], [])) as (setup & E1 & L1 & P1).
  { intros r Hr. rewrite (@get_ok bytes _ r []) by (rewrite Ls; exact Hr). cbn [bind]. fold (fg_seed r).
    destruct (sign_setup_ok H I c nk OK salt r (fg_seed r) (io_wide _ _ _ OK) (proj1 (fg_seed_str r Hr))) as (t0 & A & B).
    exists (t0, map (fg_com r) (seq 0 n), map (fg_tape r) (seq 0 n)). split; [exact A|]. exists t0. split; [reflexivity|]. split; [|exact B].
    unfold sign_setup in A. destruct (seed_tree H salt r (fg_seed r) n) as [t1| | |]; try discriminate A. cbn [bind] in A. cbv zeta in A.
    apply bind_ok in A. destruct A as (c1 & _ & A). apply bind_ok in A. destruct A as (c2 & _ & A). injection A as -> _ _. reflexivity. }
  rewrite E1. cbn [bind]. clear E1.
  set (tree_of := fun r => fst (fst (nth r setup (mkTree [] [] [] 0 0 0, [], [])))).
  assert (Esetup : setup = map (fun r => (tree_of r, map (fg_com r) (seq 0 n), map (fg_tape r) (seq 0 n))) (seq 0 T)).
  { rewrite (list_map_nth' setup T (mkTree [] [] [] 0 0 0, [], [])) at 1 by exact L1. apply map_seq_ext. intros r Hr.
    destruct (P1 r ltac:(lia)) as (_ & t0 & A & _). unfold tree_of. rewrite A. reflexivity. }
  rewrite Esetup, !map_map. cbn [fst snd].
  rewrite (mapM_seq _ fg_p1).
  2:{ intros r Hr. rewrite get_map_seq by exact Hr. cbn [bind]. rewrite <- Ekey. apply c_phase1_ok. intros p Hpn. apply fg_tape_ok. }
  cbn [bind]. rewrite !map_map. cbn [fg_p1 r1_key_delta r1_t_delta r1_bcast].
  unfold phase_1_commitment. pose proof (phase_1_ctx_ok I salt pk msg fg_com fg_bc fg_kd fg_td) as Ec1.
  match type of Ec1 with ?l = _ => match goal with |- context [phase_1_ctx ?a ?b ?c0 ?d ?e ?f ?g ?h] => change (phase_1_ctx a b c0 d e f g h) with l end end.
  rewrite Ec1. clear Ec1. cbn [bind].
  change (fst (hash_squeeze H (hash_final (ctx_of I HASH_PREFIX_1 (in1 I salt pk msg fg_com fg_bc fg_kd fg_td))) (digest_size I))) with fg_h1.
  destruct (phase_1_expand_ok H I ltac:(lia) c HI fg_h1) as (rss & E2 & L2 & F2). rewrite E2. cbn [bind].
  rewrite (phase_2_commitment_ok H I c nk OK salt fg_h1 (fun _ => repeat 0%N (M2 + 1))) by (intros; rewrite repeat_length; lia). cbn [bind]. fold fg_h2.
  destruct (phase_2_outcome H I ltac:(lia) c HI fuel fg_h2) as [E7|(Rs & E7 & L7 & F7 & _)]; [apply (points_ok I c nk OK); lia|left; rewrite E7; split; reflexivity|].
  right. rewrite E7. cbn [bind]. exists tree_of, rss, Rs. split; [reflexivity|]. split.
  { intros r Hr. destruct (P1 r Hr) as (_ & t0 & A & B). unfold tree_of. rewrite A. exact B. }
  split; [reflexivity|]. split; [exact L2|]. split.
  { intros r Hr. rewrite Forall_forall in F2. apply F2. apply nth_In. rewrite L2. exact Hr. }
  split; [reflexivity|]. split; [exact L7|].
  intros r Hr. rewrite Forall_forall in F7. apply F7. apply nth_In. rewrite L7. exact Hr.
Qed.

Section Finish.
Variables (fuel : nat) (trees : nat -> tree) (rss : list (list N)) (Rs : list N).
Hypothesis Htrees : forall r, r < T -> tree_good r (trees r).
Hypothesis E1 : phase_1_expand H I c fg_h1 = Ok rss.
Hypothesis Lrs : length rss = T.
Hypothesis Hrs : forall r, r < T -> length (nth r rss []) = M1 /\ Forall E (nth r rss []).
Hypothesis E2 : phase_2_expand H I c fuel fg_h2 (get_first_n_field_elements c M2) = Ok Rs.
Hypothesis LRs : length Rs = T.
Hypothesis HRs : forall r, r < T -> E (nth r Rs 0%N).
Definition the_commit : committed :=
  mkCommitted (map trees (seq 0 T)) (map (fun r => map (fg_com r) (seq 0 n)) (seq 0 T)) (map fg_p1 (seq 0 T)) fg_h1 rss (map (fun r => map (fg_tape r) (seq 0 n)) (seq 0 T)) fg_h2 Rs.
Notation rs_ r := (nth r rss []).
Notation R_ r := (nth r Rs 0%N).
Definition fg_open (d : nat -> N) (r : nat) : view := osum (fg_tape r) (rs_ r) (fg_s r) (fg_t r) (one_delta (d r)) (R_ r).
Definition fg_view (d : nat -> N) (r : nat) : nat -> view :=
  known I c (L1 (R_ r)) (L2 (R_ r)) (rs_ r) (one_delta (d r)) (fg_s r) (fg_t r) (fg_tape r).
Lemma fg_s_str r p : p < n -> str sb (fg_s r p).
Proof. intros Hpn. apply c_outs_str; [intros; apply fg_tape_ok|exact Hpn]. Qed.
Lemma fg_t_str r p : p < n -> str sb (fg_t r p).
Proof. intros Hpn. apply v_ts_str; [apply c_td_str; intros; apply fg_tape_ok|apply fg_tape_ok]. Qed.
Definition rel_ok (d : nat -> N) (r : nat) : Prop :=
  gsum M1 (fun j => gmul c (nth j (v_a (fg_open d r)) 0%N) (nth j (v_b (fg_open d r)) 0%N)) = v_c (fg_open d r).
Lemma lag_point R : E R -> ~ In R (get_first_n_field_elements c (2 * M2)) -> lag c pre2 (2 * M2) R <> 0%N.
Proof.
  intros HR Hn. destruct (xs2_ok I c nk OK) as (_ & L & _). apply (lg_neq0 _ _ _ _ G2); [rewrite L; lia|exact HR|].
  intros j Hj Hne HE. apply Hn. rewrite L in Hj. rewrite HE.
  destruct (api_points lam c HI (2 * M2)) as (_ & Lp & _); [apply (points_ok I c nk OK); lia|].
  assert (EX : nth j (xs2 I c) 0%N = nth j (get_first_n_field_elements c (2 * M2)) 0%N).
  { unfold xs2, get_first_n_field_elements. apply first_elements_nth; lia. }
  rewrite EX. apply nth_In. rewrite Lp. lia.
Qed.
Lemma ph5_ok : exists d, (forall r, r < T -> E (d r)) /\ (forall r, r < T -> ~ In (R_ r) (get_first_n_field_elements c (2 * M2)) -> rel_ok d r) /\
  mapM (fun rep =>
    do rs <- get (f_rss the_commit) rep; do p1 <- get (f_ph1 the_commit) rep; do tp <- get (f_tapes the_commit) rep;
    do q <- forge_points I c rs p1 tp; do R <- get (f_Rs the_commit) rep; forge_rep I c pre1 pre2 R q) (seq 0 T) =
  Ok (map (fun r => (one_delta (d r), (fg_open d r, map (fg_view d r) (seq 0 n)))) (seq 0 T)).
Proof.
  destruct (mapM_exists (fun rep =>
    do rs <- get (f_rss the_commit) rep; do p1 <- get (f_ph1 the_commit) rep; do tp <- get (f_tapes the_commit) rep;
    do q <- forge_points I c rs p1 tp; do R <- get (f_Rs the_commit) rep; forge_rep I c pre1 pre2 R q)
    (fun r x => exists d, E d /\ x = (one_delta d, (fg_open (fun _ => d) r, map (fg_view (fun _ => d) r) (seq 0 n))) /\
       (lag c pre2 (2 * M2) (R_ r) <> 0%N -> rel_ok (fun _ => d) r))
    T ([], (([], [], 0%N), []))) as (l & El & Ll & Pl).
  { intros r Hr. cbn [the_commit f_rss f_ph1 f_tapes f_Rs]. rewrite (get_ok rss r []) by (rewrite Lrs; exact Hr). cbn [bind].
    rewrite !get_map_seq by exact Hr. cbn [bind]. destruct (Hrs r Hr) as [X1 X2].
    unfold forge_points. rewrite (mapM_seq _ (v_pts I c (rs_ r) (fg_s r) (fg_t r) (fg_tape r))).
    2:{ intros p Hpn. cbn [fg_p1 r1_s r1_t]. rewrite !get_map_seq by exact Hpn. cbn [bind].
        apply (party_points_ok I c nk OK); [exact X1|apply fg_s_str; exact Hpn|apply fg_t_str; exact Hpn|apply fg_tape_ok]. }
    cbn [bind]. rewrite (mapM_seq _ (fun p => map (P_pt I (rs_ r) p (fg_tape r p)) (seq 0 (2 * M2 + 1)))).
    2:{ intros p Hpn. rewrite get_map_seq by exact Hpn. cbn [bind]. apply (P_share_ok I c nk OK); [exact X1|apply fg_tape_ok]. }
    cbn [bind]. rewrite (get_ok Rs r 0%N) by (rewrite LRs; exact Hr). cbn [bind].
    destruct (forge_rep_ok (fg_tape r) ltac:(intros; apply fg_tape_ok) (rs_ r) (fg_s r) (fg_t r) X1 X2 (R_ r) (HRs r Hr)) as (d & A & B & C).
    eexists. split; [exact B|]. exists d. split; [exact A|]. split; [reflexivity|]. exact C. }
  exists (fun r => nth M2 (fst (nth r l ([], (([], [], 0%N), [])))) 0%N).
  assert (Q : forall r, r < T -> let d := nth M2 (fst (nth r l ([], (([], [], 0%N), [])))) 0%N in E d /\
    nth r l ([], (([], [], 0%N), [])) = (one_delta d, (fg_open (fun _ => d) r, map (fg_view (fun _ => d) r) (seq 0 n))) /\
       (lag c pre2 (2 * M2) (R_ r) <> 0%N -> rel_ok (fun _ => d) r)).
  { intros r Hr. destruct (Pl r Hr) as (_ & d & A & B & C). cbv zeta. rewrite B. cbn [fst]. rewrite one_delta_nth, Nat.eqb_refl by lia. auto. }
  split; [|split].
  - intros r Hr. apply (Q r Hr).
  - intros r Hr Hne. destruct (Q r Hr) as (_ & _ & C). apply C. apply lag_point; [apply HRs; exact Hr|exact Hne].
  - rewrite El. f_equal. rewrite (list_map_nth' l T ([], (([], [], 0%N), []))) at 1 by exact Ll. apply map_seq_ext. intros r Hr.
    destruct (Q r ltac:(lia)) as (_ & B & _). exact B.
Qed.

(** *** verification *)
Section Accept.
Variables (d : nat -> N) (m : nat -> nat) (en : nat -> list bytes) (garb : nat -> N).
Hypothesis Ed : forall r, r < T -> E (d r).
Definition fg_h3 : bytes := hash_of H I HASH_PREFIX_3 (in3 I salt fg_h2 (fg_open d) (fg_view d)).
Hypothesis E3 : phase_3_expand H I fuel garb fg_h3 = Ok (map m (seq 0 T)).
Hypothesis Hm : forall r, r < T -> m r < n.
Hypothesis Hen : forall r, r < T -> exists t', seed_tree_rev H salt r (en r, m r) n = Ok t' /\ length (en r) = ceil_log2_nat n /\
  (forall v : bytes, In v (en r) -> str (seed_size I) v) /\
  (forall j, j < n -> get_leaf t' j = Ok (if j =? m r then None else Some (leaf_seed H salt r (fg_seed r) n j))).
Hypothesis Hrel : forall r, r < T -> rel_ok d r.
Definition fg_proof (r : nat) : rep_proof :=
  mkProof (en r, m r) (fg_com r (m r)) (fg_kd r) (fg_td r) (one_delta (d r)) (v_c (fg_open d r)) (v_a (fg_open d r)) (v_b (fg_open d r)).
Definition fg_sig : signature := mkSig salt fg_h1 fg_h3 (map fg_proof (seq 0 T)).
Definition f_leaf (r p : nat) : bytes := if p =? m r then zeros (seed_size I) else leaf_seed H salt r (fg_seed r) n p.
Definition fD (r : nat) : vin := mkVin (f_leaf r) (rs_ r) (R_ r) (m r) (fg_proof r).
Lemma fg_shape r : r < T -> proof_shape I (fg_proof r).
Proof.
  intros Hr. destruct (Hen r Hr) as (t' & A & B & C & D). destruct (Hrs r Hr) as [X1 X2].
  destruct (osum_elt (fg_tape r) (rs_ r) (fg_s r) (fg_t r) (one_delta (d r)) (R_ r) (HRs r Hr)) as (O1 & O2 & O3).
  unfold fg_proof. constructor; cbn [p_reveal p_C p_sk_delta p_t_delta p_P_delta p_P_at_R p_S_at_R p_T_at_R fst]; auto.
  - unfold fg_com, l_com. apply commit_str.
  - apply c_kd_str. intros; apply fg_tape_ok.
  - apply c_td_str. intros; apply fg_tape_ok.
  - split; [apply one_delta_len|apply one_delta_E; apply Ed; exact Hr].
  - split; [|exact O1]. unfold fg_open, osum, v_a. cbn [fst snd]. apply length_map_seq.
  - split; [|exact O2]. unfold fg_open, osum, v_b. cbn [fst snd]. apply length_map_seq.
Qed.
Lemma fD_ok r : r < T -> vin_ok H I salt r (fD r).
Proof.
  intros Hr. pose proof (fg_shape r Hr) as S. destruct (Hen r Hr) as (t' & A & B & C & D). destruct (Hrs r Hr) as [X1 X2].
  constructor; unfold fD; cbn [vi_leafs vi_rs vi_R vi_m vi_pf]; auto.
  - exists t'. split; [exact A|]. intros p Hpn. rewrite D by exact Hpn. unfold f_leaf. destruct (p =? m r); reflexivity.
  - intros p Hpn. unfold f_leaf. destruct (p =? m r); [unfold zeros; apply repeat_length|]. rewrite <- (proj1 (fg_seed_str r Hr)). apply node_seed_length.
  - unfold f_leaf. rewrite Nat.eqb_refl. reflexivity.
Qed.
Lemma fD_tape r p : p <> m r -> w_tape H I salt r (fD r) p = fg_tape r p.
Proof. intros Hpn. unfold w_tape, fD, f_leaf, fg_tape, l_tape. cbn [vi_leafs]. apply Nat.eqb_neq in Hpn. rewrite Hpn. reflexivity. Qed.
Lemma fD_com r p : w_com H I salt r (fD r) p = fg_com r p.
Proof.
  unfold w_com, fD, f_leaf. cbn [vi_leafs vi_m vi_pf]. unfold fg_proof. cbn [p_C]. destruct (Nat.eqb_spec p (m r)) as [->|]; reflexivity.
Qed.
Lemma fD_out r p : p <> m r -> v_out I nk pt (fg_kd r) (fg_td r) (w_tape H I salt r (fD r)) p = outs I nk key pt t (fg_tape r) p.
Proof. intros Hpn. unfold outs, v_out, aes_out, v_keys, v_ts. rewrite fD_tape by exact Hpn. reflexivity. Qed.
Lemma fD_bcast r p : r < T -> p < n -> w_bcast H I nk salt pt ct r (fD r) p = fg_bc r p.
Proof.
  intros Hr Hpn. unfold w_bcast, v_bcast. cbn [fD vi_m vi_pf fg_proof p_sk_delta p_t_delta]. unfold fg_bc. destruct (Nat.eqb_spec p (m r)) as [->|Hne].
  - rewrite (bothers_ext _ _ _ _ (fun q => fst (outs I nk key pt t (fg_tape r) q))).
    + pose proof (c_outs_sum (fg_tape r) ltac:(intros; apply fg_tape_ok)) as A. rewrite <- A at 1.
      apply (bsum_recover (pt_size I) n (m r) (fun q => fst (outs I nk key pt t (fg_tape r) q)) (Hm r Hr)).
      intros q Hq. apply c_outs_str; [intros; apply fg_tape_ok|exact Hq].
    + intros q _ Hq. f_equal. apply fD_out. exact Hq.
  - f_equal. apply fD_out. exact Hne.
Qed.
Lemma fD_view r p : r < T -> p < n -> w_view H I c nk pre1 pre2 salt pt r (fD r) p = fg_view d r p.
Proof.
  intros Hr Hpn. unfold w_view, fg_view. change (vi_rs (fD r)) with (rs_ r). change (vi_R (fD r)) with (R_ r). change (vi_m (fD r)) with (m r).
  change (p_P_delta (vi_pf (fD r))) with (one_delta (d r)). change (w_open (fD r)) with (fg_open d r).
  rewrite (v_views_ext I c _ _ _ _ _ _ _ (fg_s r) _ (fg_t r) _ (fg_tape r));
    [|intros q Hq Hne; unfold w_s, fg_s; f_equal; apply fD_out; exact Hne
     |intros q Hq Hne; unfold w_t, fg_t, v_ts; cbn [fD vi_pf fg_proof p_t_delta]; rewrite fD_tape by exact Hne; reflexivity
     |intros q Hq Hne; apply fD_tape; exact Hne|exact Hpn].
  apply c_views_eq; [apply Hrs; exact Hr|apply Hm; exact Hr|exact Hpn].
Qed.
Lemma fg_accepted extra garb' : verify_body H I c (fuel + extra) garb' pk fg_sig msg = Ok true.
Proof.
  pose proof (n_pos I c nk OK) as Hn.
  assert (Ein2 : in2 I salt fg_h1 (fun r => p_P_delta (vi_pf (fD r))) = in2 I salt fg_h1 (fun _ => repeat 0%N (M2 + 1))).
  { unfold in2. do 2 f_equal. f_equal. apply map_seq_ext. intros r Hr. unfold part2. f_equal. apply map_seq_ext. intros k Hk0. f_equal.
    cbn [fD vi_pf fg_proof p_P_delta]. rewrite one_delta_nth by lia. rewrite nth_repeat. destruct (Nat.eqb_spec k M2); [lia|reflexivity]. }
  assert (X2 : phase_2_expand H I c (fuel + extra) fg_h2 (get_first_n_field_elements c M2) = Ok (map (fun r => vi_R (fD r)) (seq 0 T))).
  { destruct (phase_2_outcome H I ltac:(lia) c HI fuel fg_h2) as [X|(Rs' & X & _ & _ & Y)]; [apply (points_ok I c nk OK); lia| |];
    rewrite E2 in X; [discriminate X|]. injection X as <-. rewrite Y. f_equal. rewrite (list_map_nth' Rs T 0%N) at 1 by exact LRs. reflexivity. }
  assert (X3 : phase_3_expand H I (fuel + extra) garb' fg_h3 = Ok (map (fun r => vi_m (fD r)) (seq 0 T))).
  { rewrite (phase_3_garb H I ltac:(lia) _ garb' garb). destruct (phase_3_outcome H I ltac:(lia) fuel garb fg_h3) as [X|(ms & X & _ & _ & Y)];
    rewrite E3 in X; [discriminate X|]. injection X as <-. apply Y. }
  rewrite (verify_body_ok H I c nk OK pre1 pre2 (fuel + extra) garb' pk pt ct fg_sig msg fD); auto.
  - cbn [fg_sig s_salt s_h1 s_h3]. rewrite Ein2. fold fg_h2.
    assert (A1 : in1 I salt pk msg (fun r => w_com H I salt r (fD r)) (fun r => w_bcast H I nk salt pt ct r (fD r))
       (fun r => p_sk_delta (vi_pf (fD r))) (fun r => p_t_delta (vi_pf (fD r))) = in1 I salt pk msg fg_com fg_bc fg_kd fg_td).
    { unfold in1. do 4 f_equal. apply map_seq_ext. intros r Hr. apply part1_ext; intros p Hpn; [apply fD_com|apply fD_bcast; [lia|exact Hpn]]. }
    rewrite A1. fold fg_h1.
    assert (A3 : in3 I salt fg_h2 (fun r => w_open (fD r)) (fun r => w_view H I c nk pre1 pre2 salt pt r (fD r)) = in3 I salt fg_h2 (fg_open d) (fg_view d)).
    { unfold in3. apply f_equal. apply f_equal. apply f_equal. apply map_seq_ext. intros r Hr.
      change (w_open (fD r)) with (fg_open d r). apply part3_ext. intros p Hpn. apply fD_view; [lia|exact Hpn]. }
    rewrite A3. fold fg_h3.
    rewrite (proj2 (bytes_eqb_eq fg_h1 fg_h1) eq_refl), (proj2 (bytes_eqb_eq fg_h3 fg_h3) eq_refl). cbn [andb]. f_equal.
    apply forallb_forall. intros r Hr. apply in_seq in Hr. unfold rel_holds. cbn [fD vi_pf fg_proof p_S_at_R p_T_at_R p_P_at_R]. apply N.eqb_eq.
    exact (Hrel r ltac:(lia)).
  - apply read_app_l. apply Hp.
  - apply read_app_r; [apply Hp|apply Hct].
  - apply Hp.
  - intros r Hr. apply fD_ok. exact Hr.
  - apply stream_length.
  - apply stream_length.
  - cbn [fg_sig s_h1]. rewrite E1. f_equal. rewrite (list_map_nth' rss T []) at 1 by exact Lrs. reflexivity.
  - cbn [fg_sig s_h1 s_salt]. rewrite Ein2. exact X2.
Qed.
End Accept.

Lemma mapM_throw {B} (f : nat -> res B) e k : (forall i, i < k -> (exists x, f i = Ok x) \/ f i = Throw e) -> (exists i, i < k /\ f i = Throw e) -> mapM f (seq 0 k) = Throw e.
Proof.
  intros Hf Hex. assert (G : forall q s0, s0 + q = k -> (exists i, s0 <= i < k /\ f i = Throw e) -> mapM f (seq s0 q) = Throw e).
  { induction q; intros s0 Hq (i & Hi & Ei); [lia|]. cbn [seq mapM]. destruct (Hf s0 ltac:(lia)) as [(x & Ex)|Ex]; rewrite Ex; [|reflexivity].
    cbn [bind]. rewrite IHq; [reflexivity|lia|]. exists i. split; [|exact Ei]. destruct (Nat.eq_dec i s0) as [->|]; [|lia]. rewrite Ex in Ei. discriminate Ei. }
  apply G; [lia|]. destruct Hex as (i & Hi & Ei). exists i. split; [lia|exact Ei].
Qed.

Lemma finish_run garb :
  (forge_finish H I c fuel garb salt the_commit = OutOfFuel /\ exists h3, phase_3_expand H I fuel garb h3 = OutOfFuel) \/
  (exists sig, forge_finish H I c fuel garb salt the_commit = Ok sig /\ (str SALT_SIZE salt -> sig_shape I sig) /\
     forall extra garb', verify_body H I c (fuel + extra) garb' pk sig msg = Ok true) \/
  (forge_finish H I c fuel garb salt the_commit = Throw ESanity /\ exists r, r < T /\ In (R_ r) (get_first_n_field_elements c (2 * M2))).
Proof.
  pose proof (n_pos I c nk OK) as Hn. destruct ph5_ok as (d & Ed & Hrel & E5).
  unfold forge_finish. fold (xs1 I c). fold (xs2 I c). rewrite (lg_pre _ _ _ _ G1). cbn [bind]. rewrite (lg_pre _ _ _ _ G2). cbn [bind].
  rewrite E5. cbn [bind]. clear E5. rewrite !map_map. cbn [fst snd]. unfold phase_3_commitment.
  change (f_h2 the_commit) with fg_h2.
  rewrite (phase_3_ctx_ok I c nk OK salt fg_h2 (fun r => fg_open d r) (fun r => fg_view d r)).
  2:{ intros r Hr. unfold fg_open, osum, view_shape, v_a, v_b. cbn [fst snd]. rewrite !length_map_seq. split; reflexivity. }
  2:{ intros r p Hr Hpn. apply known_shape. }
  cbn [bind].
  match goal with |- context [phase_3_expand H I fuel garb ?x] => change x with (fg_h3 d) end.
  destruct (phase_3_outcome H I ltac:(lia) fuel garb (fg_h3 d)) as [E8|(ms & E8 & L8 & F8 & _)]; [left; split; [rewrite E8; reflexivity|exists (fg_h3 d); exact E8]|].
  right. rewrite E8. cbn [bind].
  assert (Hm : forall r, r < T -> nth r ms 0 < n).
  { intros r Hr. rewrite Forall_forall in F8. apply F8. apply nth_In. rewrite L8. exact Hr. }
  destruct (mapM_exists (fun rep => do t0 <- get (map trees (seq 0 T)) rep; do m <- get ms rep; reveal_all_but t0 m)
    (fun r x => exists entries t', x = (entries, nth r ms 0) /\ seed_tree_rev H salt r (entries, nth r ms 0) n = Ok t' /\
    length entries = ceil_log2_nat n /\ (forall v : bytes, In v entries -> str (seed_size I) v) /\
    (forall j, j < n -> get_leaf t' j = Ok (if j =? nth r ms 0 then None else Some (leaf_seed H salt r (fg_seed r) n j))))
    T ([], 0)) as (revs & E9 & L9 & P9).
  { intros r Hr. rewrite get_map_seq by exact Hr. cbn [bind]. rewrite (get_ok ms r 0) by (rewrite L8; exact Hr). cbn [bind].
    destruct (Htrees r Hr) as (A & B). destruct (B (nth r ms 0) (Hm r Hr)) as (entries & t' & B1 & B2 & B3 & B4 & B5).
    exists (entries, nth r ms 0). split; [exact B1|]. exists entries, t'. split; [reflexivity|]. split; [exact B2|]. split; [exact B3|]. split; [|exact B5].
    apply (str_entries H I c nk OK salt r (nth r ms 0) entries t' (fg_seed r)); auto; [apply fg_seed_str; exact Hr|]. exists (trees r). auto. }
  cbn [the_commit f_trees f_coms f_ph1 f_h1]. rewrite E9. cbn [bind]. clear E9.
  set (m := fun r => nth r ms 0). set (en := fun r => fst (nth r revs ([], 0))).
  assert (Ems : phase_3_expand H I fuel garb (fg_h3 d) = Ok (map m (seq 0 T))).
  { rewrite E8. f_equal. rewrite (list_map_nth' ms T 0) at 1 by exact L8. reflexivity. }
  match goal with |- context [mapM ?f (seq 0 T)] => set (F := f) end.
  assert (HF : forall r, r < T -> F r = if N.eqb (gsum M1 (fun j => gmul c (nth j (v_a (fg_open d r)) 0%N) (nth j (v_b (fg_open d r)) 0%N))) (v_c (fg_open d r))
     then Ok (fg_proof d m en r) else Throw ESanity).
  { intros r Hr. unfold F. rewrite (get_ok ms r 0) by (rewrite L8; exact Hr). cbn [bind]. rewrite get_map_seq by exact Hr. cbn [bind].
    rewrite get_map_seq by (apply Hm; exact Hr). cbn [bind].
    rewrite (get_ok revs r ([], 0)) by (rewrite L9; exact Hr). cbn [bind]. rewrite get_map_seq by exact Hr. cbn [bind].
    rewrite get_map_seq by exact Hr. cbn [bind fst snd].
    rewrite (accumulate_ok I c) by (unfold fg_open, osum, v_a, v_b; cbn [fst snd]; rewrite length_map_seq; reflexivity). cbn [bind].
    destruct (P9 r Hr) as (_ & entries & t' & B1 & _). unfold fg_proof, m, en. rewrite B1. reflexivity. }
  destruct (forallb (fun r => N.eqb (gsum M1 (fun j => gmul c (nth j (v_a (fg_open d r)) 0%N) (nth j (v_b (fg_open d r)) 0%N))) (v_c (fg_open d r))) (seq 0 T)) eqn:Eall.
  - left. rewrite forallb_forall in Eall. rewrite (mapM_seq _ (fg_proof d m en)).
    2:{ intros r Hr. rewrite HF by exact Hr. rewrite Eall by (apply in_seq; lia). reflexivity. }
    cbn [bind]. assert (Hen : forall r, r < T -> exists t', seed_tree_rev H salt r (en r, m r) n = Ok t' /\ length (en r) = ceil_log2_nat n /\
      (forall v : bytes, In v (en r) -> str (seed_size I) v) /\
      (forall j, j < n -> get_leaf t' j = Ok (if j =? m r then None else Some (leaf_seed H salt r (fg_seed r) n j)))).
    { intros r Hr. destruct (P9 r Hr) as (_ & entries & t' & B1 & B2 & B3 & B4 & B5). exists t'. unfold en, m. rewrite B1. cbn [fst]. auto. }
    eexists. split; [reflexivity|]. split.
    + intros HS. constructor; cbn [s_salt s_h1 s_h3 s_proofs]; [exact HS|split; [apply stream_length|apply stream_bytes]|split; [apply stream_length|apply stream_bytes]|apply length_map_seq|].
      apply Forall_forall. intros p Hpi. apply in_map_iff in Hpi. destruct Hpi as (r & <- & Hr). apply in_seq in Hr. apply (fg_shape d m en Ed Hen). lia.
    + intros extra garb'. apply (fg_accepted d m en garb); auto.
      intros r Hr. apply N.eqb_eq. apply Eall. apply in_seq. lia.
  - right. assert (Hbad : exists r, r < T /\ F r = Throw ESanity /\ In (R_ r) (get_first_n_field_elements c (2 * M2))).
    { assert (X : exists r, In r (seq 0 T) /\ N.eqb (gsum M1 (fun j => gmul c (nth j (v_a (fg_open d r)) 0%N) (nth j (v_b (fg_open d r)) 0%N))) (v_c (fg_open d r)) = false).
      { clear - Eall. induction (seq 0 T) as [|a l IH]; [discriminate Eall|]. cbn [forallb] in Eall. apply andb_false_iff in Eall. destruct Eall as [Ea|Ea].
        - exists a. split; [left; reflexivity|exact Ea].
        - destruct (IH Ea) as (r & A & B). exists r. split; [right; exact A|exact B]. }
      destruct X as (r & Hr & Er). apply in_seq in Hr. exists r. split; [lia|]. split; [rewrite HF by lia; rewrite Er; reflexivity|].
      destruct (in_dec N.eq_dec (R_ r) (get_first_n_field_elements c (2 * M2))) as [|Hne]; [assumption|]. exfalso.
      apply N.eqb_neq in Er. apply Er. apply Hrel; [lia|exact Hne]. }
    destruct Hbad as (r & Hr & Er & Hin). split; [|exists r; split; assumption].
    rewrite (mapM_throw F ESanity T); [reflexivity| |exists r; split; assumption].
    intros q Hq. rewrite HF by exact Hq. destruct (N.eqb _ _); [left; eexists; reflexivity|right; reflexivity].
Qed.
End Finish.
End Run.
