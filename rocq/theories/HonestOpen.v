(** The values of an honest signature are its transcript, and they satisfy the relations that verification checks: the proof of
    C71_transcript, and of C79_honest. *)
From Coq Require Import Arith NArith List Bool Lia.
From Verif Require Import Prelude FieldModel FieldSpec FieldApi FieldLin PolyModel PolyProofs FieldSig Gf8 Instances HashModel TreeModel TreeSpec TreeProofs TreeApi TreeRev AesSpec AesModel AesBase AesApi AesShares BanquetModel ContainerModel ListSum BanquetHash BanquetPure BanquetPoly BanquetSign BanquetVerify BanquetCtx BanquetRun BanquetApi SignFacts ChallengeFacts TapeFacts HashFacts Serialize SerialFacts ShareFacts Forge SigSpec VerifyTree VerifyFacts VerifyOutcome AcceptFacts AlterFacts ExtractSpec ExtractPoly ExtractFacts ExtractApi FreeSpec OnlineSpec OnlineFacts HonestSpec HonestFacts.
Import ListNotations.

Section Open.
Variables (H : oracle) (I : instance) (c : fctx) (nk k0 : nat).
Hypothesis OK : inst_ok I c nk.
Hypothesis HP : num_parties I = 2 ^ k0.
Hypothesis Hk8 : k0 <= 8.
Hypothesis MM : m1 I * m2 I = num_sboxes (i_aes I).
Let HI := io_field _ _ _ OK.
Notation E := (elt (lambda I)).
Notation ks := (key_size (i_aes I)).
Notation sb := (num_sboxes (i_aes I)).
Notation lam := (lambda I).
Notation n := (num_parties I).
Notation M1 := (m1 I).
Notation M2 := (m2 I).
Notation T := (num_rounds I).
Notation H0 := (horner gadd (gmul c)).
Notation point k := (nth k (get_first_n_field_elements c (2 * M2 + 1)) 0%N).
Variables (key pt ct s t msg : bytes).
Hypothesis KO : key_ok I nk key pt ct s t.

Section Rep.
Variables (salt h1 h3 root : bytes) (e : nat) (pf : rep_proof) (x : rep_values).
Hypothesis HR : honest_rep H I c salt h1 h3 root key pt s t e pf x.
Hypothesis SH : proof_shape I pf.
Hypothesis ER : E (x_point x).
Lemma honest_eval : evaluation H I c salt pt e pf (x_coef x) (x_point x) (fun p => x_node x (first_leaf n + p)) x.
Proof. constructor; [apply (hr_tape HR)|apply (hr_key HR)|apply (hr_inv HR)|apply (hr_aes HR)|apply (hr_S HR)|apply (hr_T HR)|apply (hr_P HR)]. Qed.
Let EV := honest_eval.
Let Hpt : str (pt_size I) pt := ko_pt _ _ _ _ _ _ _ KO.
Lemma n_2' : 2 <= n. Proof. apply (n_pos I c nk OK). Qed.
Lemma h_tape p : p < n -> tape_ok I (x_tape x p). Proof. apply (ev_tape_ok H I c _ _ _ _ _ _ _ x EV). Qed.
Lemma h_key p : p < n -> str ks (x_key x p). Proof. apply (ev_key_str H I c _ _ _ _ _ _ _ SH x EV). Qed.
Lemma h_inv p : p < n -> str sb (x_inv x p). Proof. apply (ev_inv_str H I c _ _ _ _ _ _ _ SH x EV). Qed.
Lemma h_in p : p < n -> str sb (x_in x p). Proof. apply (ev_in_str H I c nk OK _ _ _ _ _ _ _ Hpt SH x EV). Qed.
Lemma h_out p : p < n -> str (pt_size I) (x_out x p).
Proof.
  intros Hp. assert (Hpt' : str (16 * nblocks nk) pt) by (rewrite <- (io_pt _ _ _ OK); exact Hpt).
  destruct (aes_out_str I c nk OK pt (x_key x) (x_inv x) p Hpt' (h_key p Hp) (h_inv p Hp)) as [Q _]. unfold aes_out in Q. rewrite <- (ev_pn H I c nk OK _ _ _ _ _ _ _ Hpt SH x EV p Hp) in Q. exact Q.
Qed.
Lemma coef_l : length (x_coef x) = M1. Proof. rewrite (hr_coef HR). apply length_map_seq. Qed.
Lemma coef_e : Forall E (x_coef x). Proof. rewrite (hr_coef HR). apply (coef_E H I c nk OK). Qed.
Lemma s_str : str sb s. Proof. apply (key_facts I c nk OK _ _ _ _ _ KO). Qed.
Lemma t_str : str sb t. Proof. apply (key_facts I c nk OK _ _ _ _ _ KO). Qed.
(** the shares add up *)
Lemma sum_key : all_key I x = key.
Proof.
  unfold all_key. pose proof n_2' as N2. assert (L : forall p, p < n -> length (slice (x_tape x p) 0 ks) = ks) by (intros p Hp; apply (tape_str I 0 ks (key_off0 I) _ (h_tape p Hp))).
  transitivity (bsum ks n (fun p => if p =? 0 then xorl (p_sk_delta pf) (slice (x_tape x 0) 0 ks) else slice (x_tape x p) 0 ks)).
  - apply bsum_ext. intros p Hp. rewrite (hr_key HR p Hp). cbv zeta. destruct (Nat.eqb_spec p 0) as [->|_]; reflexivity.
  - rewrite (bsum_first ks n (fun p => slice (x_tape x p) 0 ks) (p_sk_delta pf)); [|lia|apply (ps_sk _ _ SH)|exact L].
    rewrite (hr_key_delta HR). apply xorl_cancel_r. rewrite (bsum_len ks n _ L). apply (ko_key _ _ _ _ _ _ _ KO).
Qed.
Lemma sum_inv : all_inv I x = t.
Proof.
  unfold all_inv. pose proof n_2' as N2. assert (L : forall p, p < n -> length (slice (x_tape x p) ks sb) = sb) by (intros p Hp; apply (tape_str I ks sb (key_off I) _ (h_tape p Hp))).
  transitivity (bsum sb n (fun p => if p =? 0 then xorl (p_t_delta pf) (slice (x_tape x 0) ks sb) else slice (x_tape x p) ks sb)).
  - apply bsum_ext. intros p Hp. rewrite (hr_inv HR p Hp). cbv zeta. destruct (Nat.eqb_spec p 0) as [->|_]; reflexivity.
  - rewrite (bsum_first sb n (fun p => slice (x_tape x p) ks sb) (p_t_delta pf)); [|lia|apply (ps_t _ _ SH)|exact L].
    rewrite (hr_t_delta HR). apply xorl_cancel_r. rewrite (bsum_len sb n _ L). apply t_str.
Qed.
Lemma sum_aes : xall (pt_size I) (map (x_out x) (seq 0 n)) = ct /\ all_in I x = s.
Proof.
  pose proof n_2' as N2.
  assert (SI : shares_in nk (map (x_key x) (seq 0 n)) (map (x_inv x) (seq 0 n)) pt).
  { split; [apply (io_nk _ _ _ OK)|]. split; [clear -N2; destruct n; [lia|discriminate]|]. rewrite !length_map_seq. split; [reflexivity|].
    rewrite <- (io_ks _ _ _ OK), <- (io_sb _ _ _ OK), <- (io_pt _ _ _ OK). repeat split; try apply Hpt;
    apply Forall_map, Forall_forall; intros p Hpn; apply in_seq in Hpn; [apply h_key|apply h_inv]; lia. }
  destruct (shares_complete nk _ _ pt s t ct SI) as (rs & E1 & EC & ES).
  - rewrite <- (io_ks _ _ _ OK). fold (all_key I x). rewrite sum_key. apply (ko_run _ _ _ _ _ _ _ KO).
  - rewrite <- (io_sb _ _ _ OK). exact sum_inv.
  - pose proof (hr_aes HR) as A. rewrite (aes_shares_eq I c nk OK), (io_sb _ _ _ OK), E1 in A. injection A as ->.
    unfold ct_of in EC. unfold s_of in ES. rewrite map_map in EC, ES. cbn [fst] in EC. cbn [snd] in ES. rewrite <- (io_pt _ _ _ OK) in EC. rewrite <- (io_sb _ _ _ OK) in ES. split; [exact EC|exact ES].
Qed.
(** the opened values *)
Lemma pair_one i : i < sb -> gmul c (lift c (nth i s 0%N)) (lift c (nth i t 0%N)) = 1%N.
Proof.
  intros Hi. assert (A : (nth i s 0 < 256)%N) by (apply is_bytes_nth; apply s_str). assert (B : (nth i t 0 < 256)%N) by (apply is_bytes_nth; apply t_str).
  destruct (key_facts I c nk OK _ _ _ _ _ KO) as (_ & _ & _ & Q). specialize (Q i Hi). rewrite (fmul_gf8 _ _ A B) in Q.
  destruct (api_lift_hom lam c HI) as (_ & L1 & L). destruct (L _ _ A B) as (_ & _ & LM & _). rewrite <- (LM (gf8_mul (nth i s 0%N) (nth i t 0%N))) by (apply aes_product_iff; auto). rewrite Q. exact L1.
Qed.
Lemma opened : (forall j, j < M1 -> xsum (map (fun p => x_S x p j) (seq 0 n)) = nth j (p_S_at_R pf) 0%N) /\
  (forall j, j < M1 -> xsum (map (fun p => x_T x p j) (seq 0 n)) = nth j (p_T_at_R pf) 0%N) /\
  xsum (map (x_P x) (seq 0 n)) = p_P_at_R pf /\
  xsum (map (fun j => gmul c (nth j (p_S_at_R pf) 0%N) (nth j (p_T_at_R pf) 0%N)) (seq 0 M1)) = p_P_at_R pf.
Proof.
  destruct (hr_polys HR) as (S & TT & P & HS & HT & PP & VP & ED & ES & ET & EPR). pose proof coef_l as Lr. pose proof coef_e as Er. destruct sum_aes as [_ EIn].
  assert (VS : forall j, j < M1 -> H0 (S j) (x_point x) = gsum n (fun p => x_S x p j)).
  { intros j Hj. destruct (HS j Hj) as ([L1 F1] & V1 & W1).
    apply (S_sum I c nk k0 OK HP Hk8 MM (x_coef x) (x_point x) (x_in x) (x_tape x) (x_S x) Lr Er ER h_in h_tape (hr_S HR) j (S j) Hj).
    unfold bsum. fold (all_in I x). rewrite EIn. split; [exact L1|]. split; [exact F1|]. split; [exact V1|exact W1]. }
  assert (VT : forall j, j < M1 -> H0 (TT j) (x_point x) = gsum n (fun p => x_T x p j)).
  { intros j Hj. destruct (HT j Hj) as ([L1 F1] & V1 & W1).
    apply (T_sum I c nk k0 OK HP Hk8 MM (x_coef x) (x_point x) (x_inv x) (x_tape x) (x_T x) Lr ER h_inv h_tape (hr_T HR) j (TT j) Hj).
    unfold bsum. fold (all_inv I x). rewrite sum_inv. split; [exact L1|]. split; [exact F1|]. split; [exact V1|exact W1]. }
  split; [|split; [|split]].
  - intros j Hj. rewrite ES, nth_map_seq by exact Hj. symmetry. exact (VS j Hj).
  - intros j Hj. rewrite ET, nth_map_seq by exact Hj. symmetry. exact (VT j Hj).
  - rewrite EPR. symmetry. apply (P_sum' I c nk k0 OK HP Hk8 MM (x_coef x) (x_point x) (x_tape x) (p_P_delta pf) (x_P x) Lr Er ER (proj2 (ps_P _ _ SH)) h_tape (hr_P HR)).
    destruct PP as [LP FP]. split; [exact LP|]. split; [exact FP|]. split.
    + intros k Hk. rewrite VP by (apply (xs2_elt I c nk OK); lia). rewrite (list_map_nth' (x_coef x) M1 0%N Lr) at 1. f_equal. apply map_seq_ext. intros j Hj.
      destruct (HS j ltac:(lia)) as (_ & V1 & _). destruct (HT j ltac:(lia)) as (_ & V2 & _). rewrite V1, V2 by exact Hk.
      assert (Hi : j + M1 * k < sb) by (apply (idx_ok I c nk OK); lia).
      rewrite (g_assoc lam c HI); [rewrite pair_one by exact Hi; apply (g_mul_1_r lam c HI); apply (E_nth lam c HI); exact Er|apply (E_nth lam c HI); exact Er| |];
        apply (lift_elt lam c HI); apply is_bytes_nth; [apply s_str|apply t_str].
    + intros k Hk. rewrite ED, nth_map_seq by exact Hk. unfold gadd. fold (tape_sum I x (ks + sb + M1 * 2 * lam + k * lam)).
      change (gsum n (fun p => tape_elem I (x_tape x p) (ks + sb + M1 * 2 * lam + k * lam))) with (tape_sum I x (ks + sb + M1 * 2 * lam + k * lam)).
      rewrite N.lxor_comm, N.lxor_assoc, N.lxor_nilpotent. symmetry. apply N.lxor_0_r.
  - rewrite EPR, VP by exact ER. f_equal. apply map_seq_ext. intros j Hj. rewrite ES, ET, !nth_map_seq by lia. reflexivity.
Qed.
Lemma honest_ok : length ct = pt_size I -> rep_ok H I c salt h1 h3 pt ct e pf x.
Proof.
  intros Lct. destruct opened as (OS & OT & OP & _). constructor; [apply (hr_hidden HR)|]. constructor.
  - intros i Hi. rewrite (hr_reveal HR). cbn [fst]. rewrite nth_map_seq by exact Hi. reflexivity.
  - intros k Hk _. apply (hr_child HR). split; [apply Hk|]. pose proof n_2'. assert (Z : first_leaf n + (n - 1) < 2 * n - 1) by (apply (leaf_lt HP Hk8); lia). lia.
  - constructor.
    + apply (hr_coef HR).
    + intros p Hp. destruct (Nat.eqb_spec p (x_hidden x)) as [->|_]; [symmetry; apply (hr_C HR)|apply (hr_com HR p Hp)].
    + intros p Hp _. apply (hr_tape HR p Hp).
    + intros p Hp. split; [apply h_key, Hp|]. split; [apply h_inv, Hp|]. split; [apply h_out, Hp|apply h_in, Hp].
    + intros p Hp _. apply (hr_key HR p Hp).
    + intros p Hp _. apply (hr_inv HR p Hp).
    + eexists. split; [apply (hr_aes HR)|]. intros p Hp _. rewrite nth_error_map, (nth_error_nth' (seq 0 n) 0) by (rewrite seq_length; exact Hp). rewrite seq_nth by exact Hp. reflexivity.
    + apply sum_aes.
    + intros p j Hp _ Hj. apply (hr_S HR p j Hp Hj).
    + intros p j Hp _ Hj. apply (hr_T HR p j Hp Hj).
    + intros p Hp _. apply (hr_P HR p Hp).
    + exact OS.
    + exact OT.
    + exact OP.
Qed.
End Rep.
End Open.
