(** The assertions: when they hold (C64). *)
From Coq Require Import Arith NArith List Bool Lia.
From Verif Require Import Prelude FieldModel FieldSpec FieldApi PolyModel Instances HashModel TreeModel TreeSpec TreeProofs TreeApi AesSpec AesModel AesBase AesPlain AesApi AesShares BanquetModel ListSum BanquetHash BanquetPure BanquetVerify BanquetSign BanquetCtx BanquetRun Serialize BanquetApi ChallengeFacts ShareFacts ZeroKey KeygenFacts DebugModel FreeSpec.
Import ListNotations.

(** *** sequencing *)
Lemma dbind_done {A B} (d : dres A) (m : res A) (g : A -> dres B) (f : A -> res B) : d = Done m -> (forall a, m = Ok a -> g a = Done (f a)) -> dbind d g = Done (bind m f).
Proof. intros -> G. destruct m; cbn [dbind bind]; auto. Qed.
Lemma dbind_same {A B} (m : res A) (g : A -> dres B) (f : A -> res B) : (forall a, m = Ok a -> g a = Done (f a)) -> dbind (Done m) g = Done (bind m f).
Proof. apply dbind_done. reflexivity. Qed.
Lemma check_true b {A} (g : dres A) : b = true -> dbind (check b) (fun _ => g) = g.
Proof. intros ->. reflexivity. Qed.
Lemma dmapM_done {A B} (f : A -> dres B) g l : (forall a, In a l -> f a = Done (g a)) -> dmapM f l = Done (mapM g l).
Proof.
  induction l as [|a l IH]; intros G; [reflexivity|]. cbn [dmapM mapM]. apply dbind_done; [apply G; left; reflexivity|]. intros b _.
  apply dbind_done; [apply IH; intros x Hx; apply G; right; exact Hx|]. reflexivity.
Qed.
Lemma dfoldM_done {A B} (f : B -> A -> dres B) g l : (forall b a, In a l -> f b a = Done (g b a)) -> forall b, dfoldM f l b = Done (foldM g l b).
Proof.
  induction l as [|a l IH]; intros G b; [reflexivity|]. cbn [dfoldM foldM]. apply dbind_done; [apply G; left; reflexivity|]. intros b' _.
  apply IH. intros x y Hy. apply G. right. exact Hy.
Qed.

(** *** the tree *)
Lemma path_nonzero m k x : In x (path_up m k) -> x <> 0.
Proof.
  revert k. induction m as [|m IH]; intros k; cbn [path_up]; [intros []|]. destruct (k =? 0) eqn:E; [intros []|]. intros [<-|X]; [apply Nat.eqb_neq; exact E|exact (IH _ X)].
Qed.
Lemma flag_lt e i : flag e i = true -> i < length e.
Proof. intros F. destruct (le_lt_dec (length e) i) as [L|L]; [|exact L]. unfold flag in F. rewrite nth_overflow in F by exact L. discriminate F. Qed.
Lemma d_get_sibling_done e total node : length e = total -> node <> 0 -> has_sibling e node = true -> d_get_sibling e total node = Done (Ok (get_sibling total node)).
Proof.
  intros L Nz HS. unfold d_get_sibling. pose proof HS as HS'. unfold has_sibling in HS'. apply andb_true_iff in HS'. destruct HS' as [F1 F2].
  pose proof (flag_lt _ _ F1) as L1. rewrite check_true by (apply Nat.ltb_lt; lia). rewrite check_true by (apply negb_true_iff, Nat.eqb_neq; exact Nz). rewrite check_true by exact HS.
  unfold get_sibling. destruct (Nat.odd node); [|reflexivity]. cbn [andb] in F2. rewrite negb_involutive in F2. pose proof (flag_lt _ _ F2) as L2.
  replace (node + 1 <? total) with true by (symmetry; apply Nat.ltb_lt; lia). reflexivity.
Qed.
Lemma total_big N total : leaves_ok N -> num_total_nodes N = Ok total -> 2 <= total /\ total = 2 ^ depth N - 1 + N.
Proof. intros HN E. rewrite (total_ok N HN) in E. injection E as <-. destruct HN. split; [lia|reflexivity]. Qed.
Lemma exists_len N e : leaves_ok N -> build_exists (2 ^ depth N - 1 + N) N = Ok e -> length e = 2 ^ depth N - 1 + N.
Proof. intros HN E. destruct (build_exists_ok N (proj1 HN)) as (e' & E' & L & _). rewrite E in E'. injection E' as <-. exact L. Qed.
Lemma d_parent_done x {A} (g : dres A) : x <> 0 -> dbind (d_get_parent x) (fun _ => g) = g.
Proof. intros X. unfold d_get_parent. rewrite check_true by (apply negb_true_iff, Nat.eqb_neq; exact X). reflexivity. Qed.
Lemma then_parent {A} (m : res A) x : x <> 0 -> dbind (Done m) (fun v => dbind (d_get_parent x) (fun _ => Done (Ok v))) = Done m.
Proof. intros X. destruct m; cbn [dbind]; try reflexivity. rewrite d_parent_done by exact X. reflexivity. Qed.
Section T.
Variables (H : oracle) (salt : bytes) (rep : nat).
Lemma d_seed_tree_done seed N : leaves_ok N -> d_seed_tree H salt rep seed N = Done (seed_tree H salt rep seed N).
Proof.
  intros HN. unfold d_seed_tree, seed_tree. apply dbind_same. intros total ET. destruct (total_big N total HN ET) as [Tb _].
  apply dbind_same. intros e Ee. cbv zeta. apply dbind_same. intros has _. apply dbind_same. intros data _.
  rewrite d_parent_done by lia. replace (total <=? 1) with false by (symmetry; apply Nat.leb_gt; lia). apply dbind_same. reflexivity.
Qed.
Lemma seed_tree_sizes seed N t : leaves_ok N -> seed_tree H salt rep seed N = Ok t -> t_leaves t = N /\ length (t_exists t) = t_total t.
Proof.
  intros HN E. unfold seed_tree in E. apply bind_ok in E. destruct E as (total & ET & E). apply bind_ok in E. destruct E as (e & Ee & E). cbv zeta in E.
  apply bind_ok in E. destruct E as (has & _ & E). apply bind_ok in E. destruct E as (data & _ & E). destruct (total <=? 1); [discriminate E|].
  apply bind_ok in E. destruct E as (w & _ & E). injection E as <-. cbn [t_leaves t_exists t_total]. split; [reflexivity|].
  destruct (total_big N total HN ET) as [_ ->]. apply exists_len; assumption.
Qed.
Lemma d_seed_tree_rev_done rl N : leaves_ok N -> d_seed_tree_rev H salt rep rl N = Done (seed_tree_rev H salt rep rl N).
Proof.
  intros HN. unfold d_seed_tree_rev, seed_tree_rev. apply dbind_same. intros total ET. destruct (total_big N total HN ET) as [Tb Te].
  apply dbind_same. intros e Ee. rewrite Te in Ee. pose proof (exists_len N e HN Ee) as Le. rewrite <- Te in Le.
  apply dbind_same. intros front _. cbv zeta. apply dbind_done.
  - apply dfoldM_done. intros [data has] [i node] Hin. apply in_combine_r in Hin. apply path_nonzero in Hin.
    unfold d_place_sibling, place_sibling. destruct (has_sibling e node) eqn:HS.
    + rewrite d_get_sibling_done by assumption. apply then_parent. exact Hin.
    + apply then_parent. exact Hin.
  - intros w _. rewrite d_parent_done by lia. replace (total <=? 1) with false by (symmetry; apply Nat.leb_gt; lia).
    destruct (64 <? 2 * length front); [reflexivity|]. apply dbind_same. reflexivity.
Qed.
Lemma seed_tree_rev_leaves rl N t : seed_tree_rev H salt rep rl N = Ok t -> t_leaves t = N.
Proof.
  intros E. unfold seed_tree_rev in E. apply bind_ok in E. destruct E as (total & ET & E). apply bind_ok in E. destruct E as (e & Ee & E).
  apply bind_ok in E. destruct E as (front & _ & E). cbv zeta in E. apply bind_ok in E. destruct E as (w & _ & E). destruct (total <=? 1); [discriminate E|].
  destruct (64 <? 2 * length front); [discriminate E|]. apply bind_ok in E. destruct E as (w' & _ & E). injection E as <-. reflexivity.
Qed.
End T.
Lemma d_reveal_done t m : length (t_exists t) = t_total t -> d_reveal_all_but t m = Done (reveal_all_but t m).
Proof.
  intros L. unfold d_reveal_all_but, reveal_all_but. cbv zeta. apply dbind_done; [|reflexivity]. apply dmapM_done. intros node Hin. apply path_nonzero in Hin.
  destruct (has_sibling (t_exists t) node) eqn:HS.
  - rewrite d_get_sibling_done by assumption. apply then_parent. exact Hin.
  - apply then_parent. exact Hin.
Qed.
Lemma d_leaf_done t p : p < t_leaves t -> d_get_leaf t p = Done (get_leaf t p).
Proof. intros L. unfold d_get_leaf. rewrite check_true by (apply Nat.ltb_lt; exact L). reflexivity. Qed.

(** *** AES *)
Lemma d_sizes_ok ks key pt {A} (g : dres A) : length key = ks -> length pt = aes_pt_size ks -> dbind (d_aes_sizes ks key pt) (fun _ => g) = g.
Proof. intros <- E. unfold d_aes_sizes. rewrite Nat.eqb_refl, E, Nat.eqb_refl. destruct (_ || _); reflexivity. Qed.

(** *** groups of four parties *)
Lemma d_by4_done {A} n (f4 : nat -> dres (list A)) f1 g4 g1 : (forall p, p + 3 < n -> f4 p = Done (g4 p)) -> (forall p, p < n -> f1 p = Done (g1 p)) ->
  d_by4 n f4 f1 = Done (by4 n g4 g1).
Proof.
  intros G4 G1. unfold d_by4, by4. pose proof (Nat.mul_div_le n 4 ltac:(lia)) as D. apply dbind_done.
  - apply dmapM_done. intros p Hp. apply in_map_iff in Hp. destruct Hp as (b & <- & Hb). apply in_seq in Hb. apply G4. lia.
  - intros xs _. apply dbind_done; [|reflexivity]. apply dmapM_done. intros p Hp. apply in_seq in Hp. apply G1. lia.
Qed.

Section D.
Variables (H : oracle) (I : instance) (c : fctx) (nk : nat).
Hypothesis OK : inst_ok I c nk.
Notation n := (num_parties I).
Notation ks := (key_size (i_aes I)).
Let HN : leaves_ok n := io_leaves _ _ _ OK.
Lemma d_phase_3_done fuel garb h3 : d_phase_3_expand H I fuel garb h3 = Done (phase_3_expand H I fuel garb h3).
Proof. unfold d_phase_3_expand. apply check_true. apply N.ltb_lt. exact (io_N _ _ _ OK). Qed.
Lemma d_sign_setup_done salt rep master : d_sign_setup H I salt rep master = Done (sign_setup H I salt rep master).
Proof.
  unfold d_sign_setup, sign_setup. rewrite d_seed_tree_done by exact HN. apply dbind_same. intros t Et. destruct (seed_tree_sizes _ _ _ _ _ _ HN Et) as [Lt _].
  assert (Lf : forall p, p < n -> dbind (d_get_leaf t p) (fun o => Done (value o)) = Done (do o <- get_leaf t p; value o)).
  { intros p Hp. rewrite d_leaf_done by (rewrite Lt; exact Hp). apply dbind_same. reflexivity. }
  cbv zeta. apply dbind_done.
  - apply d_by4_done; intros p Hp.
    + do 4 (apply dbind_done; [apply Lf; lia|]; intros ? _). reflexivity.
    + apply dbind_done; [apply Lf; lia|]. reflexivity.
  - intros coms _. apply dbind_done; [|reflexivity]. apply dmapM_done. intros p Hp. apply in_seq in Hp. apply dbind_done; [apply Lf; lia|]. reflexivity.
Qed.
Lemma d_verify_setup_done salt proof rep missing : d_verify_setup H I salt proof rep missing = Done (verify_setup H I salt proof rep missing).
Proof.
  unfold d_verify_setup, verify_setup. destruct (negb (missing =? snd (p_reveal proof))); [reflexivity|]. rewrite d_seed_tree_rev_done by exact HN. apply dbind_same.
  intros t Et. pose proof (seed_tree_rev_leaves _ _ _ _ _ _ Et) as Lt. cbv zeta.
  assert (Lf : forall p, p < n -> dbind (d_get_leaf t p) (fun o => Done (Ok (value_or o (zeros (seed_size I))))) = Done (do o <- get_leaf t p; Ok (value_or o (zeros (seed_size I))))).
  { intros p Hp. rewrite d_leaf_done by (rewrite Lt; exact Hp). apply dbind_same. reflexivity. }
  apply dbind_done.
  - apply d_by4_done; intros p Hp.
    + do 4 (apply dbind_done; [apply Lf; lia|]; intros ? _). reflexivity.
    + destruct (p =? missing); [reflexivity|]. rewrite d_leaf_done by (rewrite Lt; exact Hp). apply dbind_same. intros o _. apply dbind_same. reflexivity.
  - intros coms _. do 3 (apply dbind_same; intros ? _). apply dbind_done; [|reflexivity]. apply d_by4_done; intros p Hp.
    + do 4 (apply dbind_done; [apply Lf; lia|]; intros ? _). reflexivity.
    + apply dbind_done; [apply Lf; lia|]. reflexivity.
Qed.
Lemma d_verify_contexts_done fuel garb pk sig msg : d_verify_contexts H I c fuel garb pk sig msg = Done (verify_contexts H I c fuel garb pk sig msg).
Proof.
  unfold d_verify_contexts, verify_contexts. cbv zeta. do 5 (apply dbind_same; intros ? _). rewrite d_phase_3_done. apply dbind_same. intros missing _.
  apply dbind_done.
  { apply dmapM_done. intros rep _. do 2 (apply dbind_same; intros ? _). apply d_verify_setup_done. }
  intros setup _. do 7 (apply dbind_same; intros ? _). reflexivity.
Qed.
Lemma d_verify_body_done fuel garb pk sig msg : d_verify_body H I c fuel garb pk sig msg = Done (verify_body H I c fuel garb pk sig msg).
Proof.
  unfold d_verify_body, verify_body. rewrite d_verify_contexts_done. apply dbind_same. intros [ctx1 ctx3] _. cbv zeta. apply dbind_same. intros e1 _.
  destruct (negb e1); [reflexivity|]. apply dbind_same. intros e3 _. destruct (negb e3); reflexivity.
Qed.
Lemma d_verify_done fuel garb st pk sig msg : d_verify H fuel garb st I pk sig msg = Done (snd (verify H fuel garb st I pk sig msg)).
Proof.
  unfold d_verify, verify, with_field. destruct (st_init st (lambda I)) as [[c'|] [[]|e|u|]] eqn:ES; try reflexivity. cbn [snd].
  assert (c' = c) as ->; [|apply d_verify_body_done].
  unfold st_init in ES. rewrite (io_field _ _ _ OK) in ES. injection ES as <-. reflexivity.
Qed.

(** signing *)
Lemma pt_size_is : pt_size I = aes_pt_size ks.
Proof. rewrite (io_pt _ _ _ OK), (io_ks _ _ _ OK). destruct (io_nk _ _ _ OK) as [<-|[<-|[<-|[]]]]; reflexivity. Qed.
Lemma sign_setup_sizes salt rep master x : sign_setup H I salt rep master = Ok x ->
  length (t_exists (fst (fst x))) = t_total (fst (fst x)) /\ length (snd x) = n /\ Forall (str (tape_size I)) (snd x).
Proof.
  unfold sign_setup. intros E. apply bind_ok in E. destruct E as (t & Et & E). cbv zeta in E. apply bind_ok in E. destruct E as (coms & _ & E).
  apply bind_ok in E. destruct E as (tapes & Etp & E). injection E as <-. cbn [fst snd]. split; [exact (proj2 (seed_tree_sizes _ _ _ _ _ _ HN Et))|].
  split; [rewrite (mapM_length _ _ _ Etp); apply seq_length|]. apply mapM_ok_inv in Etp. clear - Etp. induction Etp as [|p tp ps tps E _ IH]; constructor; [|exact IH].
  apply bind_ok in E. destruct E as (s & _ & E). injection E as <-. apply tape_str.
Qed.
Variables (key pt ct s t : bytes).
Hypothesis KO : key_ok I nk key pt ct s t.
Lemma d_sign_phase1_done tapes : length tapes = n -> Forall (str (tape_size I)) tapes ->
  d_sign_phase1 I key t pt ct tapes = Done (sign_phase1 I key t pt tapes).
Proof.
  intros L F. set (tp p := nth p tapes []). assert (TP : forall p, p < n -> tape_ok I (tp p)).
  { intros p Hp. rewrite Forall_forall in F. apply F. apply nth_In. rewrite L. exact Hp. }
  pose proof (sign_phase1_ok I c nk OK key pt ct s t KO tp TP) as E. assert (M : map tp (seq 0 n) = tapes) by (symmetry; exact (list_map_nth' tapes n [] L)). rewrite M in E. rewrite E.
  unfold d_sign_phase1. rewrite E. cbn [dbind r1_bcast].
  rewrite (foldM_xor_into (pt_size I)); [|apply repeat_length|].
  2:{ apply Forall_forall. intros b Hb. apply in_map_iff in Hb. destruct Hb as (p & <- & Hp). apply in_seq in Hp. apply (outs_str I c nk OK key pt ct s t KO tp TP). lia. }
  cbn [dbind]. destruct (outs_sum I c nk OK key pt ct s t KO tp TP) as [A _].
  assert (S : str (pt_size I) ct) by exact (BanquetRun.ct_str I c nk OK key pt ct s t KO).
  unfold bsum in A. rewrite A. rewrite xorl_comm, xorl_zeros_r by apply S. apply check_true. apply bytes_eqb_eq. reflexivity.
Qed.
Lemma d_save_run : d_aes_with_sbox_output ks key pt = Done (Ok ((s, t), Some ct)).
Proof.
  destruct KO as [Hk Hp HR]. unfold d_aes_with_sbox_output. rewrite d_sizes_ok; [|apply Hk|rewrite (proj1 Hp); apply pt_size_is].
  rewrite (ShareFacts.save_ok I c nk OK key pt Hk Hp), HR. reflexivity.
Qed.
Lemma d_sign_body_done fuel garb msg : d_sign_body H I c fuel garb (key, pt ++ ct) msg = Done (sign_body H I c fuel garb (key, pt ++ ct) msg).
Proof.
  assert (Sct : str (pt_size I) ct) by exact (BanquetRun.ct_str I c nk OK key pt ct s t KO). pose proof KO as [Hk Hp HR].
  unfold d_sign_body, sign_body. cbn [fst snd]. rewrite (read_app_l pt ct (pt_size I)) by apply Hp.
  rewrite (read_app_r pt ct (pt_size I) (pt_size I)) by (apply Hp || apply Sct). cbn [dbind bind]. rewrite d_save_run, (ShareFacts.save_ok I c nk OK key pt Hk Hp), HR. cbn [dbind bind fst snd].
  rewrite check_true by (apply bytes_eqb_eq; reflexivity). destruct (generate_salt_and_seeds H I (key, pt ++ ct) msg) as [salt seeds].
  apply dbind_done.
  { apply dmapM_done. intros rep _. apply dbind_same. intros master _. apply d_sign_setup_done. }
  intros setup Es. assert (SZ : Forall (fun x => length (t_exists (fst (fst x))) = t_total (fst (fst x)) /\ length (snd x) = n /\ Forall (str (tape_size I)) (snd x)) setup).
  { apply mapM_ok_inv in Es. clear - Es OK HN. induction Es as [|r x rs xs E _ IH]; constructor; [|exact IH]. apply bind_ok in E. destruct E as (m & _ & E). exact (sign_setup_sizes _ _ _ _ E). }
  rewrite Forall_forall in SZ. cbv zeta. apply dbind_done.
  { apply dmapM_done. intros rep _. apply dbind_same. intros tp Etp. apply get_inv in Etp. destruct Etp as [Etp _]. apply nth_error_In in Etp. apply in_map_iff in Etp.
    destruct Etp as (x & <- & Hx). destruct (SZ x Hx) as (_ & L & F). apply d_sign_phase1_done; assumption. }
  intros ph1 _. do 12 (apply dbind_same; intros ? _). rewrite d_phase_3_done. apply dbind_same. intros missing _. apply dbind_done.
  { apply dmapM_done. intros rep _. apply dbind_same. intros tr Etr. apply get_inv in Etr. destruct Etr as [Etr _]. apply nth_error_In in Etr. apply in_map_iff in Etr.
    destruct Etr as (x & <- & Hx). destruct (SZ x Hx) as (L & _). apply dbind_same. intros m _. apply d_reveal_done. exact L. }
  intros reveals _. apply dbind_same. reflexivity.
Qed.
End D.

Section Api.
Variables (H : oracle) (I : instance) (c : fctx).
Hypothesis HB : regular I.
Hypothesis Hc : init_extension_field (lambda I) = Ok c.
Let OK := inst_with I c HB Hc.
Notation ks := (key_size (i_aes I)).
Variables (fuel : nat) (garb : nat -> N) (st : fstate) (msg : bytes).
Lemma d_sign_is kp : d_sign H fuel garb st I kp msg = d_sign_body H I c fuel garb kp msg.
Proof. unfold d_sign, st_init. rewrite Hc. reflexivity. Qed.
Lemma sign_is kp : snd (sign H fuel garb st I kp msg) = sign_body H I c fuel garb kp msg.
Proof. unfold sign. rewrite (with_field_ok _ _ _ _ Hc). reflexivity. Qed.
Lemma d_sign_right key pt ct : str ks key -> str (pt_size I) pt -> aes_n (nk_of I) key pt = Some ct ->
  d_sign H fuel garb st I (key, pt ++ ct) msg = Done (snd (sign H fuel garb st I (key, pt ++ ct) msg)).
Proof.
  intros Hk Hp E. destruct (valid_key I c _ key pt ct OK Hk Hp E) as (s & t & KO). rewrite d_sign_is, sign_is. exact (d_sign_body_done H I c _ OK key pt ct s t KO fuel garb msg).
Qed.
Lemma read_pk (pt ct : bytes) : length pt = pt_size I -> length ct = pt_size I ->
  read (pt ++ ct) 0 (pt_size I) = Ok pt /\ read (pt ++ ct) (pt_size I) (pt_size I) = Ok ct.
Proof. intros A B. split; [apply read_app_l; exact A|apply read_app_r; assumption]. Qed.
Lemma d_sign_start (key pt ct : bytes) : length pt = pt_size I -> length ct = pt_size I ->
  d_aes_with_sbox_output ks key pt = Abort \/ (exists sb, d_aes_with_sbox_output ks key pt = Done (Ok sb) /\ match snd sb with Some ct2 => bytes_eqb ct ct2 | None => false end = false) ->
  d_sign H fuel garb st I (key, pt ++ ct) msg = Abort.
Proof.
  intros Lp Lc X. rewrite d_sign_is. unfold d_sign_body. cbn [fst snd]. destruct (read_pk pt ct Lp Lc) as [-> ->]. cbn [dbind].
  destruct X as [->|(sb & -> & E)]; [reflexivity|]. cbn [dbind]. rewrite E. reflexivity.
Qed.
Lemma d_sign_zero key pt ct : str ks key -> str (pt_size I) pt -> length ct = pt_size I -> aes_n (nk_of I) key pt = None ->
  d_sign H fuel garb st I (key, pt ++ ct) msg = Abort.
Proof.
  intros Hk Hp Lc E. apply d_sign_start; [apply Hp|exact Lc|]. left. unfold d_aes_with_sbox_output.
  rewrite d_sizes_ok; [|apply Hk|rewrite (proj1 Hp); exact (pt_size_is I c _ OK)].
  rewrite (ShareFacts.save_ok I c _ OK key pt Hk Hp). cbn [dbind]. pose proof (inst_aes_in I c _ key pt OK Hk Hp) as Hin.
  assert (snd (aes_n_save (nk_of I) key pt) = None) as ->; [|reflexivity].
  pose proof Hin as Hin'. assert (Hz : In 0%N (all_sbox_inputs (nk_of I) key (blocks (nk_of I) pt))) by (apply (aes_none _ _ _ Hin); exact E).
  assert (Tr : has_zero (sbox_trace (nk_of I) key (blocks (nk_of I) pt)) = true) by (apply has_zero_iff; apply (aes_trace_zero _ key pt Hin); exact Hz).
  assert (S : exists r, sv_is (aes_n_save (nk_of I) key pt) ([], []) (sbox_trace (nk_of I) key (blocks (nk_of I) pt)) r).
  { revert Hin'. generalize (nk_of I). intros nk Hin'. aes_cases Hin'; eexists; [apply save_128_is|apply save_192_is|apply save_256_is]; try assumption. all: split; assumption. }
  destruct S as [r S]. unfold sv_is in S. rewrite Tr in S. destruct S as (X & _). exact X.
Qed.
Lemma d_sign_mismatch key pt ct ct0 : str ks key -> str (pt_size I) pt -> length ct = pt_size I -> aes_n (nk_of I) key pt = Some ct0 -> ct <> ct0 ->
  d_sign H fuel garb st I (key, pt ++ ct) msg = Abort.
Proof.
  intros Hk Hp Lc E Ne. apply d_sign_start; [apply Hp|exact Lc|]. right. destruct (valid_key I c _ key pt ct0 OK Hk Hp E) as (s & t & KO).
  eexists. split; [exact (d_save_run I c _ OK key pt ct0 s t KO)|]. cbn [snd]. destruct (bytes_eqb ct ct0) eqn:EQ; [|reflexivity]. apply bytes_eqb_eq in EQ. contradiction.
Qed.
Lemma d_sign_key_len (key pt ct : bytes) : length key <> ks -> length pt = pt_size I -> length ct = pt_size I ->
  d_sign H fuel garb st I (key, pt ++ ct) msg = Abort.
Proof.
  intros Lk Lp Lc. apply d_sign_start; try assumption. left. unfold d_aes_with_sbox_output, d_aes_sizes.
  replace ((ks =? 16) || (ks =? 24) || (ks =? 32)) with true; [|rewrite (io_ks _ _ _ OK); destruct (io_nk _ _ _ OK) as [<-|[<-|[<-|[]]]]; reflexivity].
  replace (length key =? ks) with false by (symmetry; apply Nat.eqb_neq; exact Lk). reflexivity.
Qed.
End Api.

(** *** keygen *)
Lemma copy_into_len {A} (a b r : list A) : copy_into a b = Ok r -> length r = length b.
Proof. unfold copy_into. destruct (Nat.leb_spec (length a) (length b)); intros E; [|discriminate E]. injection E as <-. rewrite app_length, skipn_length. lia. Qed.
Lemma d_keygen_done I r : pt_size I = aes_pt_size (key_size (i_aes I)) -> forall fuel i key pt, length key = key_size (i_aes I) -> length pt = pt_size I ->
  d_keygen_loop fuel I r i key pt = Done (keygen_loop fuel I r i key pt).
Proof.
  intros Ep. induction fuel as [|fuel IH]; intros i key pt Lk Lp; [reflexivity|]. cbn [d_keygen_loop keygen_loop].
  apply dbind_same. intros key' Ek. apply copy_into_len in Ek. apply dbind_same. intros pt' Ept. apply copy_into_len in Ept.
  unfold d_aes_plain. rewrite d_sizes_ok by congruence. apply dbind_same. intros [x|] _; [reflexivity|]. apply IH; congruence.
Qed.

(** *** deserialization: the number of bytes consumed *)
Lemma take_off ser w off b off' : take ser w off = Ok (b, off') -> off' = off + w.
Proof. unfold take. intros E. apply bind_ok in E. destruct E as (x & _ & E). injection E as _ <-. reflexivity. Qed.
Lemma take_elem_off st I ser off x off' : take_elem st I ser off = Ok (x, off') -> off' = off + lambda I.
Proof.
  unfold take_elem. intros E. apply bind_ok in E. destruct E as ([b o] & E1 & E). apply take_off in E1. apply bind_ok in E. destruct E as (y & _ & E). injection E as _ <-. exact E1.
Qed.
Lemma take_many_off {A} (f : nat -> res (A * nat)) w : (forall off x off', f off = Ok (x, off') -> off' = off + w) ->
  forall n off xs off', take_many f n off = Ok (xs, off') -> off' = off + n * w.
Proof.
  intros Hf. induction n as [|n IH]; intros off xs off' E; cbn [take_many] in E; [injection E as _ <-; lia|].
  apply bind_ok in E. destruct E as ([x o] & E1 & E). apply Hf in E1. apply bind_ok in E. destruct E as ([ys o2] & E2 & E). apply IH in E2. injection E as _ <-. lia.
Qed.
Lemma take_proof_off st I ser m off p off' : take_proof st I ser m off = Ok (p, off') -> off' = off + proof_size I.
Proof.
  unfold take_proof. intros E.
  apply bind_ok in E. destruct E as ([? o1] & E1 & E). apply (take_many_off _ (seed_size I)) in E1; [|apply take_off].
  apply bind_ok in E. destruct E as ([? o2] & E2 & E). apply take_off in E2.
  apply bind_ok in E. destruct E as ([? o3] & E3 & E). apply take_off in E3.
  apply bind_ok in E. destruct E as ([? o4] & E4 & E). apply take_off in E4.
  apply bind_ok in E. destruct E as ([? o5] & E5 & E). apply (take_many_off _ (lambda I)) in E5; [|apply take_elem_off].
  apply bind_ok in E. destruct E as ([? o6] & E6 & E). apply take_elem_off in E6.
  apply bind_ok in E. destruct E as ([? o7] & E7 & E). apply (take_many_off _ (lambda I)) in E7; [|apply take_elem_off].
  apply bind_ok in E. destruct E as ([? o8] & E8 & E). apply (take_many_off _ (lambda I)) in E8; [|apply take_elem_off].
  injection E as _ <-. unfold proof_size. lia.
Qed.
Lemma take_proofs_off st I ser : forall ms off ps off', take_proofs st I ser ms off = Ok (ps, off') -> off' = off + length ms * proof_size I.
Proof.
  induction ms as [|m ms IH]; intros off ps off' E; cbn [take_proofs] in E; [injection E as _ <-; cbn; lia|].
  apply bind_ok in E. destruct E as ([x o] & E1 & E). apply take_proof_off in E1. apply bind_ok in E. destruct E as ([ys o2] & E2 & E). apply IH in E2. injection E as _ <-. cbn [length Nat.mul]. lia.
Qed.
Lemma phase_3_len H I fuel garb h3 l : phase_3_expand H I fuel garb h3 = Ok l -> length l = num_rounds I.
Proof.
  unfold phase_3_expand. match goal with |- sample_parties _ _ _ _ _ _ ?x = _ -> _ => generalize x end. generalize 0. generalize (num_rounds I) as k.
  intros k. revert l. induction k as [|k IH]; intros l e ctx E; cbn [sample_parties] in E; [injection E as <-; reflexivity|].
  apply bind_ok in E. destruct E as ([p ctx'] & _ & E). apply bind_ok in E. destruct E as (ps & E2 & E). injection E as <-. cbn [length]. f_equal. exact (IH _ _ _ E2).
Qed.
Lemma d_deserialize_is H fuel garb st I ser : (N.of_nat (num_parties I) < 65536)%N ->
  d_deserialize H fuel garb st I ser =
  match deserialize H fuel garb st I ser with Ok sig => if length ser =? sig_size I then Done (Ok sig) else Abort | r => Done r end.
Proof.
  intros HN. unfold d_deserialize, deserialize.
  destruct (take ser SALT_SIZE 0) as [[salt o1]|?|?|] eqn:E1; cbn [dbind bind]; try reflexivity. apply take_off in E1.
  destruct (take ser (digest_size I) o1) as [[h1 o2]|?|?|] eqn:E2; cbn [dbind bind]; try reflexivity. apply take_off in E2.
  destruct (take ser (digest_size I) o2) as [[h3 o3]|?|?|] eqn:E3; cbn [dbind bind]; try reflexivity. apply take_off in E3.
  unfold d_phase_3_expand. rewrite check_true by (apply N.ltb_lt; exact HN).
  destruct (phase_3_expand H I fuel garb h3) as [ms|?|?|] eqn:E4; cbn [dbind bind]; try reflexivity. apply phase_3_len in E4.
  destruct (take_proofs st I ser ms o3) as [[ps o4]|?|?|] eqn:E5; cbn [dbind bind]; try reflexivity. apply take_proofs_off in E5. rewrite E4 in E5.
  replace o4 with (sig_size I) by (unfold sig_size; lia). rewrite Nat.eqb_sym. unfold check. destruct (length ser =? sig_size I); reflexivity.
Qed.
