(** The steps of signing on one repetition, and the relations between the values the parties hold. *)
From Coq Require Import Arith NArith List Bool Lia.
From Verif Require Import Prelude FieldModel FieldSpec FieldApi FieldLin PolyModel Instances HashModel TreeModel TreeSpec TreeApi TreeRev AesSpec AesModel AesBase AesApi AesShares BanquetModel ContainerModel ListSum BanquetHash BanquetPure BanquetVerify.
Import ListNotations.

(** a key and plaintext for which the cipher meets no zero S-box input; s and t are its S-box inputs and their inverses *)
Record key_ok (I : instance) (nk : nat) (key pt ct s t : bytes) : Prop := mkKeyOk {
  ko_key : str (key_size (i_aes I)) key;
  ko_pt : str (pt_size I) pt;
  ko_run : aes_n_save nk key pt = ((s, t), Some ct) }.

Lemma mapM_exists {B} (f : nat -> res B) (Q : nat -> B -> Prop) n d : (forall i, i < n -> exists x, f i = Ok x /\ Q i x) ->
  exists l, mapM f (seq 0 n) = Ok l /\ length l = n /\ forall i, i < n -> f i = Ok (nth i l d) /\ Q i (nth i l d).
Proof.
  intros H. assert (G : exists l, mapM f (seq 0 n) = Ok l).
  { clear d. assert (G : forall s k, s + k <= n -> exists l, mapM f (seq s k) = Ok l).
    { intros s k; revert s; induction k; intros s Hk; [exists []; reflexivity|]. cbn [seq mapM].
      destruct (H s ltac:(lia)) as (x & -> & _). cbn [bind]. destruct (IHk (S s) ltac:(lia)) as [l ->]. exists (x :: l). reflexivity. }
    apply G. lia. }
  destruct G as [l E]. exists l. destruct (mapM_seq_inv f n l d E) as [L K]. split; [exact E|]. split; [exact L|]. intros i Hi.
  split; [apply K; exact Hi|]. destruct (H i Hi) as (x & Ex & Qx). rewrite (K i Hi) in Ex. injection Ex as ->. exact Qx.
Qed.

Lemma first_elements_nth c k : forall g m j, j < k -> j < m -> nth j (first_elements_loop c k g) 0%N = nth j (first_elements_loop c m g) 0%N.
Proof.
  induction k; intros g m j Hk Hm; [lia|]. destruct m; [lia|]. cbn [first_elements_loop]. destruct j; [reflexivity|].
  cbn [nth]. apply IHk; lia.
Qed.

Section Sign.
Variables (H : oracle) (I : instance) (c : fctx) (nk : nat).
Hypothesis OK : inst_any I c nk.
Let HI := io_field _ _ _ OK.
Notation E := (elt (lambda I)).
Notation ks := (key_size (i_aes I)).
Notation sb := (num_sboxes (i_aes I)).
Notation lam := (lambda I).
Notation n := (num_parties I).
Notation M1 := (m1 I).
Notation M2 := (m2 I).
Notation H0 := (horner gadd (gmul c)).

Lemma xs_prefix k : k <= M2 -> nth k (xs1 I c) 0%N = nth k (xs2 I c) 0%N.
Proof. intros Hk. unfold xs1, xs2, get_first_n_field_elements. apply first_elements_nth; lia. Qed.
Lemma xs_prefix0 k : k < M2 -> nth k (get_first_n_field_elements c M2) 0%N = nth k (xs2 I c) 0%N.
Proof. intros Hk. unfold xs2, get_first_n_field_elements. apply first_elements_nth; lia. Qed.
Lemma xs2_elt k : k < 2 * M2 + 1 -> E (nth k (xs2 I c) 0%N).
Proof.
  intros Hk. destruct (xs2_ok I c nk OK) as (_ & L & F). rewrite Forall_forall in F. apply F. apply nth_In. rewrite L. exact Hk.
Qed.

(** *** seeds, commitments, tapes *)
Definition l_com (salt seed : bytes) (rep p : nat) : bytes := commit_to_party_seed H I (leaf_seed H salt rep seed n p) salt rep p.
Definition l_tape (salt seed : bytes) (rep p : nat) : bytes := generate_tape H I salt rep p (leaf_seed H salt rep seed n p).
Lemma sign_setup_ok salt rep seed : wide n -> length seed = seed_size I ->
  exists t, sign_setup H I salt rep seed = Ok (t, map (l_com salt seed rep) (seq 0 n), map (l_tape salt seed rep) (seq 0 n)) /\
  forall m, m < n -> exists entries t', reveal_all_but t m = Ok (entries, m) /\ seed_tree_rev H salt rep (entries, m) n = Ok t' /\
    length entries = ceil_log2_nat n /\ (forall v : bytes, In v entries -> length v = seed_size I) /\
    (forall j, j < n -> get_leaf t' j = Ok (if j =? m then None else Some (leaf_seed H salt rep seed n j))).
Proof.
  intros HW Ls. pose proof (io_leaves _ _ _ OK) as HL. pose proof (io_seed _ _ _ OK) as HS.
  pose proof (n_pos I c nk OK) as Hn. rewrite <- Ls in HS.
  destruct (roundtrip H salt rep n seed HL HS HW 0 ltac:(lia)) as (t & _ & _ & Et & _ & _ & _ & _ & _ & Hlf & _). exists t. split.
  - unfold sign_setup. rewrite Et. cbn [bind]. cbv zeta.
    assert (Hl : forall p, p < n -> (do o <- get_leaf t p; value o) = Ok (leaf_seed H salt rep seed n p)).
    { intros p Hp. rewrite Hlf by exact Hp. reflexivity. }
    assert (Ll : forall p, p < n -> length (leaf_seed H salt rep seed n p) = seed_size I).
    { intros p Hp. rewrite <- Ls. apply node_seed_length. }
    unfold by4. rewrite (by4_eq n _ _ (l_com salt seed rep)).
    + cbn [bind]. rewrite (mapM_seq _ (l_tape salt seed rep)); [reflexivity|]. intros p Hp. rewrite Hl by exact Hp. reflexivity.
    + intros p Hp. rewrite !Hl by lia. cbn [bind]. apply commit4; apply Ll; lia.
    + intros p Hp. rewrite Hl by exact Hp. reflexivity.
  - intros m Hm. destruct (roundtrip H salt rep n seed HL HS HW m Hm) as (t1 & entries & t' & Et1 & Er & Et' & [Le He] & _ & _ & _ & Hlf' & _).
    rewrite Et in Et1. injection Et1 as <-. exists entries, t'. repeat split; auto.
    + rewrite Le. symmetry. apply ceil_log2_nat_spec; [lia|]. pose proof (io_N _ _ _ OK). lia.
    + intros v Hv. rewrite <- Ls. apply He. exact Hv.
Qed.

(** *** phase 1 *)
Variables (key pt ct s t : bytes).
Hypothesis KO : key_ok I nk key pt ct s t.

Lemma aes_in_key : aes_in nk key pt.
Proof.
  destruct KO as [[A B] [C D] _]. rewrite (io_ks _ _ _ OK) in A. rewrite (io_pt _ _ _ OK) in C.
  apply aes_in_intro; auto. apply (io_nk _ _ _ OK).
Qed.
Lemma key_facts : str sb s /\ str sb t /\ ct = flat_map (cipher nk key) (blocks nk pt) /\
  (forall i, i < sb -> fmul (nth i s 0%N) (nth i t 0%N) = 1%N).
Proof.
  pose proof aes_in_key as A. pose proof (aes_records _ _ _ A) as R. rewrite (ko_run _ _ _ _ _ _ _ KO) in R.
  pose proof (aes_trace _ _ _ A) as [L B].
  destruct (records_some _ _ _ ct R eq_refl) as (Z & E1 & E2). injection E2 as -> -> _. rewrite (io_sb _ _ _ OK).
  split; [split; assumption|]. split; [split; [rewrite map_length; exact L|]|].
  - clear - B. unfold is_bytes in *. apply Forall_map. eapply Forall_impl; [|exact B]. intros x Hx. apply Gf8.inverse_byte. exact Hx.
  - split; [exact E1|]. intros i Hi. apply inverse_pairs; [exact B|exact Z|]. rewrite L. exact Hi.
Qed.

Variable tapes : nat -> bytes.
Hypothesis HT : forall p, p < n -> tape_ok I (tapes p).
Definition kd : bytes := xorl key (bsum ks n (fun p => t_key I (tapes p))).
Definition td : bytes := xorl t (bsum sb n (fun p => t_out I (tapes p))).
Lemma kd_str : str ks kd.
Proof. apply str_xorl; [apply KO|]. apply bsum_str. intros p Hp. apply t_key_str. auto. Qed.
Lemma td_str : str sb td.
Proof. apply str_xorl; [apply key_facts|]. apply bsum_str. intros p Hp. apply t_out_str. auto. Qed.
Lemma keys_sum : bsum ks n (v_keys I kd tapes) = key.
Proof.
  pose proof (n_pos I c nk OK) as Hn. assert (K : forall p, p < n -> length (t_key I (tapes p)) = ks) by (intros p Hp; apply t_key_str; auto).
  rewrite (bsum_ext _ _ _ (fun p => if p =? 0 then xorl kd (t_key I (tapes 0)) else t_key I (tapes p))).
  - rewrite (bsum_first ks n (fun p => t_key I (tapes p))) by (try lia; auto; apply kd_str). unfold kd. apply xorl_cancel_r.
    rewrite bsum_len by exact K. apply KO.
  - intros p _. unfold v_keys, fixed. destruct (Nat.eqb_spec p 0) as [->|]; reflexivity.
Qed.
Lemma ts_sum : bsum sb n (v_ts I td tapes) = t.
Proof.
  pose proof (n_pos I c nk OK) as Hn. assert (K : forall p, p < n -> length (t_out I (tapes p)) = sb) by (intros p Hp; apply t_out_str; auto).
  rewrite (bsum_ext _ _ _ (fun p => if p =? 0 then xorl td (t_out I (tapes 0)) else t_out I (tapes p))).
  - rewrite (bsum_first sb n (fun p => t_out I (tapes p))) by (try lia; auto; apply td_str). unfold td. apply xorl_cancel_r.
    rewrite bsum_len by exact K. apply key_facts.
  - intros p _. unfold v_ts, fixed. destruct (Nat.eqb_spec p 0) as [->|]; reflexivity.
Qed.
Definition outs (p : nat) : bytes * bytes := v_out I nk pt kd td tapes p.
Lemma outs_str p : p < n -> str (pt_size I) (fst (outs p)) /\ str sb (snd (outs p)).
Proof. intros Hp. apply (v_out_str I c nk OK); auto; [apply KO|apply kd_str|apply td_str]. Qed.
Lemma outs_sum : bsum (pt_size I) n (fun p => fst (outs p)) = ct /\ bsum sb n (fun p => snd (outs p)) = s.
Proof.
  pose proof (n_pos I c nk OK) as Hn.
  assert (SI : shares_in nk (map (v_keys I kd tapes) (seq 0 n)) (map (v_ts I td tapes) (seq 0 n)) pt).
  { split; [apply (io_nk _ _ _ OK)|]. split; [destruct n; [lia|discriminate]|]. rewrite !length_map_seq. split; [reflexivity|].
    rewrite <- (io_ks _ _ _ OK), <- (io_sb _ _ _ OK), <- (io_pt _ _ _ OK). repeat split; try apply KO;
    apply Forall_map, Forall_forall; intros p Hp; apply in_seq in Hp; [apply v_keys_str|apply v_ts_str]; try apply kd_str; try apply td_str; apply HT; lia. }
  destruct (shares_complete nk _ _ pt s t ct SI) as (rs & E1 & E2 & E3).
  - rewrite <- (io_ks _ _ _ OK). fold (bsum ks n (v_keys I kd tapes)). rewrite keys_sum. apply KO.
  - rewrite <- (io_sb _ _ _ OK). exact ts_sum.
  - rewrite <- (aes_shares_eq I c nk OK), <- (io_sb _ _ _ OK) in E1.
    destruct (shares_ok I c nk OK pt kd td tapes (ko_pt _ _ _ _ _ _ _ KO) kd_str td_str HT) as (_ & _ & E4). rewrite E4 in E1. injection E1 as <-.
    unfold ct_of in E2. unfold s_of in E3. rewrite map_map in E2, E3. rewrite <- (io_pt _ _ _ OK) in E2. rewrite <- (io_sb _ _ _ OK) in E3.
    split; [exact E2|exact E3].
Qed.
Lemma share_secret_ok secret len off (f : nat -> bytes) : str len secret -> off + len <= tape_size I ->
  (forall p, p < n -> str len (slice (tapes p) off len)) ->
  share_secret I secret (map tapes (seq 0 n)) off len =
  let d := xorl secret (bsum len n (fun p => slice (tapes p) off len)) in
  Ok (d, map (fun p => fixed d p (slice (tapes p) off len)) (seq 0 n)).
Proof.
  intros Hs Ho Hf. unfold share_secret. rewrite tape_shares_ok; [|intros p Hp; apply (HT p Hp)|exact Ho]. cbn [bind].
  rewrite (foldM_xor_into len); [|apply Hs|].
  - cbn [bind]. cbv zeta. fold (bsum len n (fun p => slice (tapes p) off len)).
    pose proof (n_pos I c nk OK). rewrite (fix_first_ok I c nk OK).
    + reflexivity.
    + rewrite (proj1 (Hf 0 ltac:(lia))). symmetry. apply str_xorl; [exact Hs|]. apply bsum_str. exact Hf.
  - apply Forall_map, Forall_forall. intros p Hp. apply in_seq in Hp. apply Hf. lia.
Qed.
Lemma sign_phase1_ok : sign_phase1 I key t pt (map tapes (seq 0 n)) =
  Ok (mkRep1 kd td (map (v_keys I kd tapes) (seq 0 n)) (map (v_ts I td tapes) (seq 0 n))
       (map (fun p => snd (outs p)) (seq 0 n)) (map (fun p => fst (outs p)) (seq 0 n))).
Proof.
  unfold sign_phase1.
  rewrite (share_secret_ok key ks 0 (fun _ => [])); [|apply KO|unfold tape_size; lia|intros p Hp; apply t_key_str; auto]. cbv zeta. cbn [bind].
  rewrite (share_secret_ok t sb ks (fun _ => [])); [|apply key_facts|unfold tape_size; lia|intros p Hp; apply t_out_str; auto]. cbv zeta. cbn [bind].
  destruct (shares_ok I c nk OK pt kd td tapes (ko_pt _ _ _ _ _ _ _ KO) kd_str td_str HT) as (_ & _ & E4).
  change (aes_s_shares ks (map (v_keys I kd tapes) (seq 0 n)) (map (v_ts I td tapes) (seq 0 n)) pt sb) in E4 || idtac.
  unfold v_keys, v_ts, t_key, t_out, kd, td in E4 |- *. unfold t_key, t_out in E4 |- *.
  match type of E4 with ?x = _ => match goal with |- bind ?y _ = _ => change y with x; rewrite E4 end end.
  cbn [bind]. rewrite !map_map. reflexivity.
Qed.
End Sign.
