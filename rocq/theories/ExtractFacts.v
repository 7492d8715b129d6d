(** The proof of C55. *)
From Coq Require Import Arith NArith List Bool Lia.
From Verif Require Import Prelude FieldModel FieldSpec FieldApi FieldLin PolyModel PolyProofs FieldSig Instances HashModel TreeModel TreeSpec TreeProofs TreeApi TreeRev AesSpec AesModel AesBase AesApi AesShares BanquetModel ContainerModel ListSum BanquetHash BanquetPure BanquetPoly BanquetVerify BanquetCtx BanquetRun BanquetApi ChallengeFacts TapeFacts HashFacts Serialize SerialFacts ShareFacts Forge SigSpec VerifyTree VerifyFacts VerifyOutcome AcceptFacts AlterFacts ExtractSpec ExtractPoly.
Import ListNotations.

Lemma row3_shares I f f' x x' : row3 I f x = row3 I f' x' -> forall j p, j < m1 I -> p < num_parties I ->
  to_bytes (lambda I) (x_S x p j) = to_bytes (lambda I) (x_S x' p j) /\ to_bytes (lambda I) (x_T x p j) = to_bytes (lambda I) (x_T x' p j).
Proof.
  intros Q j p Hj Hp. unfold row3 in Q. apply app_inv_len in Q; [|rewrite !to_bytes_len; reflexivity]. destruct Q as [_ Q].
  apply app_inv_len in Q; [|transitivity (num_parties I * lambda I); [|symmetry]; apply concat_len; intros; apply to_bytes_len]. destruct Q as [_ Q].
  pose proof (concat_inj _ _ _ _ (fun i _ => col_len I f x i) (fun i _ => col_len I f' x' i) Q j Hj) as R. cbv beta in R.
  apply app_inv_len in R; [|rewrite !to_bytes_len; reflexivity]. destruct R as [_ R]. apply app_inv_len in R; [|rewrite !to_bytes_len; reflexivity]. destruct R as [_ R].
  assert (L : forall y i, i < num_parties I -> length (to_bytes (lambda I) (x_S y i j) ++ to_bytes (lambda I) (x_T y i j)) = lambda I + lambda I) by (intros; rewrite app_length, !to_bytes_len; reflexivity).
  pose proof (concat_inj _ _ _ _ (L x) (L x') R p Hp) as W. cbv beta in W. apply app_inv_len in W; [exact W|rewrite !to_bytes_len; reflexivity].
Qed.

Section Fork.
Variables (H H' : oracle) (I : instance) (c : fctx) (nk k0 : nat).
Hypothesis OK : inst_ok I c nk.
Hypothesis HP : num_parties I = 2 ^ k0.
Hypothesis Hk8 : k0 <= 8.
Hypothesis MM : m1 I * m2 I = num_sboxes (i_aes I).
Hypothesis DS : seed_size I + 36 <> digest_size I.
Hypothesis T1 : 1 <= num_rounds I.
Let HI := io_field _ _ _ OK.
Notation E := (elt (lambda I)).
Notation ks := (key_size (i_aes I)).
Notation sb := (num_sboxes (i_aes I)).
Notation lam := (lambda I).
Notation n := (num_parties I).
Notation T := (num_rounds I).
Notation M1 := (m1 I).
Notation M2 := (m2 I).
Notation V := (digest_size I =? 32).
Variables (sig sig' : signature) (pk msg : bytes) (X X' : nat -> rep_values).
Hypothesis Hpk : str (2 * pt_size I) pk.
Hypothesis SS : sig_shape I sig.
Hypothesis SS' : sig_shape I sig'.
Hypothesis TR : is_transcript H I c pk sig X.
Hypothesis TR' : is_transcript H' I c pk sig' X'.
Hypothesis AC : accepts H I c pk msg sig X.
Hypothesis AC' : accepts H' I c pk msg sig' X'.
Hypothesis Eh1 : s_h1 sig = s_h1 sig'.
Hypothesis Eh3 : s_h3 sig = s_h3 sig'.
Hypothesis IDX : forall e, e < T -> snd (p_reveal (pf_of sig e)) = x_hidden (X e).
Hypothesis IDX' : forall e, e < T -> snd (p_reveal (pf_of sig' e)) = x_hidden (X' e).
Hypothesis AG : forall v m i, m <> s_h3 sig -> H' v m i = H v m i.
Notation C := (fork_collision H H' I pk msg sig sig' X X').
Let D := list_eq_dec N.eq_dec.

Lemma agree v m o l : m <> s_h3 sig -> stream H' v m o l = stream H v m o l.
Proof. intros Ne. unfold stream. apply map_ext. intros i. rewrite AG by exact Ne. reflexivity. Qed.
Lemma agree_len v m o l : length m <> digest_size I -> stream H' v m o l = stream H v m o l.
Proof. intros Ne. apply agree. intros ->. apply Ne. apply (ss_h3 _ _ SS). Qed.
Lemma n_2 : 2 <= n. Proof. apply (n_pos I c nk OK). Qed.
Lemma h1_in_len s Y : sig_shape I s -> (exists G, is_transcript G I c pk s Y) -> digest_size I < length (h1_input I (s_salt s) pk msg (pf_of s) Y).
Proof.
  intros Sh [G TY]. unfold h1_input. rewrite !app_length. rewrite (concat_len _ _ _ (fun i Hi => row1_len G I c pk s Y i Sh TY Hi)). rewrite (proj1 (ss_salt _ _ Sh)).
  pose proof n_2 as N2. cbn [length]. unfold SALT_SIZE. clear -N2 T1. set (d := digest_size I). set (q := key_size (i_aes I) + num_sboxes (i_aes I)). generalize (pt_size I) (length pk) (length msg). intros a b e.
  assert (A : d <= n * (d + a)) by nia. assert (B : d <= T * (n * (d + a) + q)) by (transitivity (1 * (n * (d + a) + q)); [lia|apply Nat.mul_le_mono_r; exact T1]). lia.
Qed.
Lemma h2_in_len s : sig_shape I s -> digest_size I < length (h2_input I (s_salt s) (s_h1 s) (pf_of s)).
Proof. intros Sh. unfold h2_input. rewrite !app_length. rewrite (proj1 (ss_salt _ _ Sh)), (proj1 (ss_h1 _ _ Sh)). cbn [length]. unfold SALT_SIZE. lia. Qed.
Lemma h3_in_len G s Y : sig_shape I s -> digest_size I < length (h3_input I (s_salt s) (h2_of G I s) (pf_of s) Y).
Proof. intros Sh. unfold h3_input. rewrite !app_length. rewrite (proj1 (ss_salt _ _ Sh)). unfold h2_of, digest. rewrite stream_length. cbn [length]. unfold SALT_SIZE. lia. Qed.
Lemma h2_same : h2_of H' I sig' = digest H I (h2_input I (s_salt sig') (s_h1 sig') (pf_of sig')).
Proof. apply agree_len. pose proof (h2_in_len sig' SS'). lia. Qed.

Lemma fork1 : C \/ (s_salt sig = s_salt sig' /\ forall e p, e < T -> p < n -> x_com (X e) p = x_com (X' e) p /\ x_out (X e) p = x_out (X' e) p).
Proof.
  destruct (D (h1_input I (s_salt sig) pk msg (pf_of sig) X) (h1_input I (s_salt sig') pk msg (pf_of sig') X')) as [Q|Q].
  2:{ left. left. split; [exact Q|]. rewrite (ac_h1 _ _ _ _ _ _ _ AC). rewrite Eh1, <- (ac_h1 _ _ _ _ _ _ _ AC'). apply agree_len.
      pose proof (h1_in_len sig' X' SS' (ex_intro _ H' TR')). lia. }
  right. unfold h1_input in Q. apply app_inv_head in Q. apply app_inv_len in Q; [|rewrite (proj1 (ss_salt _ _ SS)), (proj1 (ss_salt _ _ SS')); reflexivity]. destruct Q as [ES Q]. split; [exact ES|].
  apply app_inv_head in Q. apply app_inv_head in Q. intros e p He Hp.
  pose proof (concat_inj _ _ _ _ (fun i Hi => row1_len H I c pk sig X i SS TR Hi) (fun i Hi => row1_len H' I c pk sig' X' i SS' TR' Hi) Q e He) as R. cbv beta in R.
  assert (F : forall p, p < n -> length (x_com (X e) p ++ x_out (X e) p) = digest_size I + pt_size I) by (intros q Hq; rewrite app_length, (com_len H I c pk sig X e q SS TR He Hq), (out_len H I c pk sig X e q TR He Hq); reflexivity).
  assert (F' : forall p, p < n -> length (x_com (X' e) p ++ x_out (X' e) p) = digest_size I + pt_size I) by (intros q Hq; rewrite app_length, (com_len H' I c pk sig' X' e q SS' TR' He Hq), (out_len H' I c pk sig' X' e q TR' He Hq); reflexivity).
  apply app_inv_len in R; [|rewrite (concat_len _ _ _ F), (concat_len _ _ _ F'); reflexivity]. destruct R as [R1 _].
  pose proof (concat_inj _ _ _ _ F F' R1 p Hp) as W. cbv beta in W. apply app_inv_len in W; [exact W|]. rewrite (com_len H I c pk sig X e p SS TR He Hp), (com_len H' I c pk sig' X' e p SS' TR' He Hp). reflexivity.
Qed.
Lemma fork3 : s_salt sig = s_salt sig' -> C \/ (h2_of H I sig = h2_of H' I sig' /\ forall e, e < T -> row3 I (pf_of sig e) (X e) = row3 I (pf_of sig' e) (X' e)).
Proof.
  intros ES. destruct (D (h3_input I (s_salt sig) (h2_of H I sig) (pf_of sig) X) (h3_input I (s_salt sig') (h2_of H' I sig') (pf_of sig') X')) as [Q|Q].
  2:{ left. right. left. split; [exact Q|]. rewrite (ac_h3 _ _ _ _ _ _ _ AC), Eh3, <- (ac_h3 _ _ _ _ _ _ _ AC'). apply agree_len.
      pose proof (h3_in_len H' sig' X' SS'). lia. }
  right. unfold h3_input in Q. rewrite ES in Q. apply app_inv_head in Q. apply app_inv_head in Q.
  apply app_inv_len in Q; [|unfold h2_of, digest; rewrite !stream_length; reflexivity]. destruct Q as [Q1 Q]. split; [exact Q1|]. intros e He.
  exact (concat_inj (fun e => row3 I (pf_of sig e) (X e)) (fun e => row3 I (pf_of sig' e) (X' e)) _ _ (fun i _ => row3_len I _ _) (fun i _ => row3_len I _ _) Q e He).
Qed.
Lemma fork_coef e : e < T -> C \/ x_coef (X e) = x_coef (X' e).
Proof.
  intros He. destruct (D (s_h1 sig) (s_h3 sig)) as [Q|Q].
  - left. right. right. left. split; [unfold h1_input, h3_input; discriminate|]. rewrite (ac_h1 _ _ _ _ _ _ _ AC), (ac_h3 _ _ _ _ _ _ _ AC). exact Q.
  - right. rewrite (ro_coef _ _ _ _ _ _ _ _ _ _ _ (tr_reps _ _ _ _ _ _ TR e He)), (ro_coef _ _ _ _ _ _ _ _ _ _ _ (tr_reps _ _ _ _ _ _ TR' e He)), <- Eh1.
    apply map_ext. intros j. rewrite agree by exact Q. reflexivity.
Qed.
Lemma fork_point e : e < T -> h2_of H I sig = h2_of H' I sig' -> C \/ x_point (X e) = x_point (X' e).
Proof.
  intros He E2. destruct (D (h2_of H I sig) (s_h3 sig)) as [Q|Q].
  - left. right. right. right. split; [unfold h2_input, h3_input; discriminate|]. rewrite (ac_h3 _ _ _ _ _ _ _ AC). exact Q.
  - right. destruct (tr_points _ _ _ _ _ _ TR) as [M EM]. destruct (tr_points _ _ _ _ _ _ TR') as [M' EM'].
    assert (CE : map (candidate H' I sig') (seq 0 M') = map (candidate H I sig) (seq 0 M')) by (apply map_ext; intros k; unfold candidate; rewrite <- E2; rewrite agree by exact Q; reflexivity). rewrite CE in EM'.
    pose proof (filter_prefix (fun R => negb (forbidden I c R)) (candidate H I sig) M M') as F. rewrite <- EM, <- EM', !length_map_seq in F. specialize (F eq_refl).
    assert (W : nth e (map (fun e => x_point (X e)) (seq 0 T)) 0%N = nth e (map (fun e => x_point (X' e)) (seq 0 T)) 0%N) by (rewrite F; reflexivity). rewrite !nth_map_seq in W by exact He. exact W.
Qed.

(** the shares hidden in a repetition are elements *)
Lemma rest_E m (f : nat -> N) a : m < n -> gsum n f = a -> E a -> (forall p, p < n -> p <> m -> E (f p)) -> forall p, p < n -> E (f p).
Proof.
  intros Hm Q Ea Hf p Hp. destruct (Nat.eq_dec p m) as [->|Ne]; [|auto]. rewrite <- (gsum_recover n m f Hm), Q. apply (E_xor lam c HI); [exact Ea|].
  apply (E_gsum lam c HI). intros q Hq. destruct (Nat.eqb_spec q m); [apply (E_0 lam c HI)|auto].
Qed.
Lemma through_E xs ys R a : E R -> through I c xs ys R a -> E a.
Proof. intros HR (f & _ & Ef & _ & <-). apply (E_horner lam c HI); assumption. Qed.
Section Elts.
Variables (G : oracle) (s : signature) (Y : nat -> rep_values) (e : nat).
Hypothesis Sh : sig_shape I s.
Hypothesis TY : is_transcript G I c pk s Y.
Hypothesis He : e < T.
Lemma pE : E (x_point (Y e)). Proof. apply (point_elt G I c nk k0 OK HP Hk8 pk s Y e TY He). Qed.
Lemma hid : x_hidden (Y e) < n.
Proof.
  rewrite (ro_hidden _ _ _ _ _ _ _ _ _ _ _ (tr_reps _ _ _ _ _ _ TY e He)). pose proof n_2. pose proof (N.mod_lt (G V (s_h3 s) e mod 256) (N.of_nat n) ltac:(lia)). lia.
Qed.
Lemma S_E p j : p < n -> j < M1 -> E (x_S (Y e) p j).
Proof.
  intros Hp Hj. pose proof (tr_reps _ _ _ _ _ _ TY e He) as RO. pose proof (pf_shape I s Sh e He) as P.
  refine (rest_E (x_hidden (Y e)) (fun p => x_S (Y e) p j) _ hid (ro_sum_S _ _ _ _ _ _ _ _ _ _ _ RO j Hj) _ _ p Hp); [apply (E_nth lam c HI); apply (ps_S _ _ P)|].
  intros q Hq Nq. exact (through_E _ _ _ _ pE (ro_S _ _ _ _ _ _ _ _ _ _ _ RO q j Hq Nq Hj)).
Qed.
Lemma T_E p j : p < n -> j < M1 -> E (x_T (Y e) p j).
Proof.
  intros Hp Hj. pose proof (tr_reps _ _ _ _ _ _ TY e He) as RO. pose proof (pf_shape I s Sh e He) as P.
  refine (rest_E (x_hidden (Y e)) (fun p => x_T (Y e) p j) _ hid (ro_sum_T _ _ _ _ _ _ _ _ _ _ _ RO j Hj) _ _ p Hp); [apply (E_nth lam c HI); apply (ps_T _ _ P)|].
  intros q Hq Nq. exact (through_E _ _ _ _ pE (ro_T _ _ _ _ _ _ _ _ _ _ _ RO q j Hq Nq Hj)).
Qed.
Lemma P_E p : p < n -> E (x_P (Y e) p).
Proof.
  intros Hp. pose proof (tr_reps _ _ _ _ _ _ TY e He) as RO. pose proof (pf_shape I s Sh e He) as P.
  refine (rest_E (x_hidden (Y e)) (x_P (Y e)) _ hid (ro_sum_P _ _ _ _ _ _ _ _ _ _ _ RO) (ps_PR _ _ P) _ p Hp).
  intros q Hq Nq. exact (through_E _ _ _ _ pE (ro_P _ _ _ _ _ _ _ _ _ _ _ RO q Hq Nq)).
Qed.
Lemma tapes_ok p : p < n -> p <> x_hidden (Y e) -> tape_ok I (x_tape (Y e) p).
Proof. intros Hp Np. rewrite (ro_tape _ _ _ _ _ _ _ _ _ _ _ (tr_reps _ _ _ _ _ _ TY e He) p Hp Np). split; [apply stream_length|apply stream_bytes]. Qed.
Lemma aes_at p : p < n -> p <> x_hidden (Y e) -> Pn nk (p =? 0) (x_key (Y e) p) (x_inv (Y e) p) (slice pk 0 (pt_size I)) = (x_out (Y e) p, x_in (Y e) p).
Proof.
  intros Hp Np. pose proof (tr_reps _ _ _ _ _ _ TY e He) as RO. destruct (ro_aes _ _ _ _ _ _ _ _ _ _ _ RO) as (outs & A & B). specialize (B p Hp Np).
  rewrite (aes_shares_ok I c nk OK (slice pk 0 (pt_size I)) (x_key (Y e)) (x_inv (Y e))) in A.
  - injection A as <-. rewrite nth_error_map in B. rewrite (nth_error_nth' (seq 0 n) 0) in B by (rewrite seq_length; exact Hp). cbn [option_map] in B. rewrite seq_nth in B by exact Hp.
    injection B as B. cbn [Nat.add] in B. rewrite <- B. reflexivity.
  - rewrite <- (io_pt _ _ _ OK). apply (pt_str I pk Hpk).
  - intros q Hq. apply (ro_sizes _ _ _ _ _ _ _ _ _ _ _ RO q Hq).
  - intros q Hq. apply (ro_sizes _ _ _ _ _ _ _ _ _ _ _ RO q Hq).
Qed.
End Elts.

Variable e : nat.
Hypothesis He : e < T.
Hypothesis NH : x_hidden (X e) <> x_hidden (X' e).
Notation x := (X e).
Notation x' := (X' e).
Notation m := (x_hidden x).
Notation RO := (tr_reps _ _ _ _ _ _ TR e He).
Notation RO' := (tr_reps _ _ _ _ _ _ TR' e He).
Notation jt f := (joint x x' f).

Lemma key_str p : p < n -> str ks (jt x_key p).
Proof. intros Hp. unfold joint. destruct (p =? m); [apply (ro_sizes _ _ _ _ _ _ _ _ _ _ _ RO' p Hp)|apply (ro_sizes _ _ _ _ _ _ _ _ _ _ _ RO p Hp)]. Qed.
Lemma inv_str p : p < n -> str sb (jt x_inv p).
Proof. intros Hp. unfold joint. destruct (p =? m); [apply (ro_sizes _ _ _ _ _ _ _ _ _ _ _ RO' p Hp)|apply (ro_sizes _ _ _ _ _ _ _ _ _ _ _ RO p Hp)]. Qed.
Lemma in_str p : p < n -> str sb (jt x_in p).
Proof. intros Hp. unfold joint. destruct (p =? m); [apply (ro_sizes _ _ _ _ _ _ _ _ _ _ _ RO' p Hp)|apply (ro_sizes _ _ _ _ _ _ _ _ _ _ _ RO p Hp)]. Qed.
Lemma tape_jt p : p < n -> tape_ok I (jt x_tape p).
Proof. intros Hp. unfold joint. destruct (Nat.eqb_spec p m) as [->|Np]; [apply (tapes_ok H' sig' X' e TR' He); auto|apply (tapes_ok H sig X e TR He); auto]. Qed.
Lemma aes_jt p : (forall q, q < n -> x_out x q = x_out x' q) -> p < n ->
  Pn nk (p =? 0) (jt x_key p) (jt x_inv p) (slice pk 0 (pt_size I)) = (x_out x p, jt x_in p).
Proof.
  intros EO Hp. unfold joint. destruct (Nat.eqb_spec p m) as [->|Np]; [|apply (aes_at H sig X e TR He); auto]. rewrite EO by exact Hp. apply (aes_at H' sig' X' e TR' He); auto.
Qed.
(** AES on the joint shares *)
Lemma key_found : (forall q, q < n -> x_out x q = x_out x' q) -> (forall i, i < sb -> right_pair (joint_in I x x') (joint_inv I x x') i) -> secret_key_for I pk (joint_key I x x').
Proof.
  intros EO RP. set (pt := slice pk 0 (pt_size I)) in *. pose proof (pt_str I pk Hpk) as Hpt. fold pt in Hpt. pose proof n_2 as N2.
  assert (SI : shares_in nk (map (jt x_key) (seq 0 n)) (map (jt x_inv) (seq 0 n)) pt).
  { split; [apply (io_nk _ _ _ OK)|]. split; [destruct n; [lia|discriminate]|]. rewrite !length_map_seq. split; [reflexivity|].
    rewrite <- (io_ks _ _ _ OK), <- (io_sb _ _ _ OK), <- (io_pt _ _ _ OK). repeat split; try apply Hpt;
    apply Forall_map, Forall_forall; intros p Hpn; apply in_seq in Hpn; [apply key_str|apply inv_str]; lia. }
  assert (E1 : aes_n_s_shares nk (map (jt x_key) (seq 0 n)) (map (jt x_inv) (seq 0 n)) pt (nsboxes nk) = Ok (map (fun p => (x_out x p, jt x_in p)) (seq 0 n))).
  { rewrite <- (io_sb _ _ _ OK), <- (aes_shares_eq I c nk OK), (aes_shares_ok I c nk OK pt (jt x_key) (jt x_inv)).
    - f_equal. apply map_seq_ext. intros p Hp. unfold aes_out. apply aes_jt; [exact EO|lia].
    - rewrite <- (io_pt _ _ _ OK). exact Hpt.
    - apply key_str.
    - apply inv_str. }
  assert (ES : s_of nk (map (fun p => (x_out x p, jt x_in p)) (seq 0 n)) = joint_in I x x').
  { unfold s_of, joint_in. rewrite map_map. cbn [snd]. rewrite <- (io_sb _ _ _ OK). reflexivity. }
  assert (EC : ct_of nk (map (fun p => (x_out x p, jt x_in p)) (seq 0 n)) = slice pk (pt_size I) (pt_size I)).
  { unfold ct_of. rewrite map_map. cbn [fst]. rewrite <- (io_pt _ _ _ OK). exact (ro_cipher _ _ _ _ _ _ _ _ _ _ _ RO). }
  pose proof (shares_sound nk _ _ pt _ SI E1) as Q. rewrite ES, EC, <- (io_sb _ _ _ OK), <- (io_ks _ _ _ OK) in Q. fold (joint_inv I x x') in Q. fold (joint_key I x x') in Q.
  specialize (Q RP). assert (SK : str ks (joint_key I x x')) by (apply (bsum_str ks n (jt x_key)); apply key_str).
  pose proof (inst_aes_in I c nk _ pt OK SK Hpt) as Hin.
  destruct (records_some _ _ _ (slice pk (pt_size I) (pt_size I)) (aes_records _ _ _ Hin)) as (_ & EC' & _); [rewrite Q; reflexivity|].
  assert (NK : ks / 4 = nk) by (rewrite (io_ks _ _ _ OK), Nat.mul_comm; apply Nat.div_mul; lia).
  split; [apply SK|]. split; [apply SK|]. exists pt. split; [apply Hpt|]. split; [apply Hpt|]. rewrite NK, <- EC'. unfold pt. clear -Hpk. destruct Hpk as [L _].
  unfold slice. rewrite skipn_O. rewrite (firstn_all2 (n := pt_size I) (skipn _ pk)) by (rewrite skipn_length; lia). symmetry. apply firstn_skipn.
Qed.
Lemma extract : C \/ secret_key_for I pk (joint_key I x x') \/
  bad_coefs I c (x_coef x) (joint_in I x x') (joint_inv I x x') \/
  bad_point I c (x_coef x) (joint_in I x x') (joint_inv I x x') (joint_tape I x x') (joint_delta x (pf_of sig e) (pf_of sig' e)) (x_point x).
Proof.
  destruct fork1 as [Q|[ES E1]]; [left; exact Q|]. destruct (fork3 ES) as [Q|[E2 E3]]; [left; exact Q|]. destruct (fork_coef e He) as [Q|EC]; [left; exact Q|].
  destruct (fork_point e He E2) as [Q|ER]; [left; exact Q|]. right.
  assert (EO : forall q, q < n -> x_out x q = x_out x' q) by (intros q Hq; apply E1; assumption).
  specialize (E3 e He). destruct (row3_inj I _ _ _ _ E3) as (_ & EP & _). pose proof (row3_shares I _ _ _ _ E3) as EST.
  pose proof (pf_shape I sig SS e He) as P. pose proof (pf_shape I sig' SS' e He) as P'.
  assert (Lr : length (x_coef x) = M1) by (rewrite (ro_coef _ _ _ _ _ _ _ _ _ _ _ RO); apply length_map_seq).
  assert (Er : Forall E (x_coef x)) by (rewrite (ro_coef _ _ _ _ _ _ _ _ _ _ _ RO); apply (coef_E H I c nk OK)).
  assert (Hm : m < n) by (apply (hid H sig X e TR He)). assert (Hm' : m <> x_hidden x') by exact NH.
  assert (FS : forall j, j < M1 -> x_S x m j = x_S x' m j) by (intros j Hj; apply (tb_inj I c nk OK); [apply (S_E H sig X e SS TR He)|apply (S_E H' sig' X' e SS' TR' He)|apply EST]; assumption).
  assert (FT : forall j, j < M1 -> x_T x m j = x_T x' m j) by (intros j Hj; apply (tb_inj I c nk OK); [apply (T_E H sig X e SS TR He)|apply (T_E H' sig' X' e SS' TR' He)|apply EST]; assumption).
  assert (FP : x_P x m = x_P x' m) by (apply (tb_inj I c nk OK); [apply (P_E H sig X e SS TR He)|apply (P_E H' sig' X' e SS' TR' He)|apply EP]; assumption).
  destruct (pairs_checked I c nk k0 OK HP Hk8 MM (x_coef x) (x_point x) (jt x_in) (jt x_inv) (jt x_tape) (p_P_delta (if m =? 0 then pf_of sig' e else pf_of sig e)) (x_S x) (x_T x) (x_P x) Lr Er) as [W|[W|W]].
  - apply (pE H sig X e TR He).
  - destruct (m =? 0); [apply (ps_P _ _ P')|apply (ps_P _ _ P)].
  - exact in_str.
  - exact inv_str.
  - exact tape_jt.
  - intros p j Hp Hj. unfold joint. destruct (Nat.eqb_spec p m) as [->|Np]; [|exact (ro_S _ _ _ _ _ _ _ _ _ _ _ RO p j Hp Np Hj)].
    rewrite FS, ER, EC by exact Hj. exact (ro_S _ _ _ _ _ _ _ _ _ _ _ RO' m j Hp Hm' Hj).
  - intros p j Hp Hj. unfold joint. destruct (Nat.eqb_spec p m) as [->|Np]; [|exact (ro_T _ _ _ _ _ _ _ _ _ _ _ RO p j Hp Np Hj)].
    rewrite FT, ER by exact Hj. exact (ro_T _ _ _ _ _ _ _ _ _ _ _ RO' m j Hp Hm' Hj).
  - intros p Hp. unfold joint. destruct (Nat.eqb_spec p m) as [->|Np].
    + rewrite FP, ER, EC. pose proof (ro_P _ _ _ _ _ _ _ _ _ _ _ RO' m Hp Hm') as Z. unfold p_pts. destruct (m =? 0); exact Z.
    + pose proof (ro_P _ _ _ _ _ _ _ _ _ _ _ RO p Hp Np) as Z. unfold p_pts. destruct (Nat.eqb_spec p 0) as [->|N0]; [|exact Z]. destruct (Nat.eqb_spec m 0); [congruence|exact Z].
  - pose proof (ac_rel _ _ _ _ _ _ _ AC e He) as Z. refine (eq_trans _ (eq_trans Z _)).
    + apply gsum_ext. intros j Hj. f_equal; [exact (ro_sum_S _ _ _ _ _ _ _ _ _ _ _ RO j Hj)|exact (ro_sum_T _ _ _ _ _ _ _ _ _ _ _ RO j Hj)].
    + symmetry. exact (ro_sum_P _ _ _ _ _ _ _ _ _ _ _ RO).
  - left. apply key_found; [exact EO|exact W].
  - right. left. exact W.
  - right. right. exact W.
Qed.
(** all seeds committed to in h_1 are known *)
Lemma seeds_known : C \/ (s_salt sig = s_salt sig' /\ forall p, p < n ->
  x_com x p = digest H I (com_input (s_salt sig) e p (joint_seed I x x' p)) /\
  jt x_tape p = stream H (2 * seed_size I =? 32) (joint_seed I x x' p ++ s_salt sig ++ le16 e ++ le16 p) 0 (tape_size I)).
Proof.
  destruct fork1 as [Q|[ES E1]]; [left; exact Q|]. right. split; [exact ES|]. intros p Hp. unfold joint_seed, joint.
  destruct (Nat.eqb_spec p m) as [->|Np].
  - rewrite (proj1 (E1 e m He Hp)). rewrite (ro_com _ _ _ _ _ _ _ _ _ _ _ RO' m Hp), (ro_tape _ _ _ _ _ _ _ _ _ _ _ RO' m Hp NH).
    destruct (Nat.eqb_spec m (x_hidden x')) as [Bad|_]; [congruence|]. rewrite <- ES.
    assert (LN : length (x_node x' (first_leaf n + m)) = seed_size I) by (apply (node_len H' I c nk OK (s_salt sig') (s_h1 sig') _ _ e (pf_of sig' e) x' (pf_shape I sig' SS' e He) (ro_open _ _ _ _ _ _ _ _ _ _ _ RO') (hid H' sig' X' e TR' He) (IDX' e He) m Hp NH)).
    pose proof (ss_salt _ _ SS) as [LS _]. split; apply agree_len.
    + unfold com_input. rewrite !app_length, LN, LS, !le16_length. unfold SALT_SIZE. lia.
    + rewrite !app_length, LN, LS, !le16_length. unfold SALT_SIZE. lia.
  - rewrite (ro_com _ _ _ _ _ _ _ _ _ _ _ RO p Hp), (ro_tape _ _ _ _ _ _ _ _ _ _ _ RO p Hp Np). destruct (Nat.eqb_spec p m); [congruence|]. split; reflexivity.
Qed.
End Fork.
