(** The proof of C79. *)
From Coq Require Import Arith NArith List Bool Lia.
From Verif Require Import Prelude FieldModel FieldSpec FieldApi FieldLin PolyModel PolyProofs FieldSig Instances HashModel TreeModel TreeSpec TreeProofs TreeApi TreeRev AesSpec AesModel AesBase AesApi AesShares BanquetModel ContainerModel ListSum BanquetHash BanquetPure BanquetPoly BanquetVerify BanquetCtx BanquetRun BanquetApi ChallengeFacts TapeFacts HashFacts Serialize SerialFacts ShareFacts Forge SigSpec VerifyTree VerifyFacts VerifyOutcome AcceptFacts AlterFacts ExtractSpec ExtractPoly ExtractFacts OnlineSpec.
Import ListNotations.

Lemma tape_str I off len : off + len <= tape_size I -> forall t, tape_ok I t -> str len (slice t off len).
Proof. intros Ho t [L B]. split; [apply slice_length; lia|apply is_bytes_slice; exact B]. Qed.
Lemma key_off I : key_size (i_aes I) + num_sboxes (i_aes I) <= tape_size I.
Proof. unfold tape_size. lia. Qed.
Lemma key_off0 I : 0 + key_size (i_aes I) <= tape_size I.
Proof. unfold tape_size. lia. Qed.

Section Online.
Variables (H : oracle) (I : instance) (c : fctx) (nk k0 : nat).
Hypothesis OK : inst_ok I c nk.
Hypothesis HP : num_parties I = 2 ^ k0.
Hypothesis Hk8 : k0 <= 8.
Hypothesis MM : m1 I * m2 I = num_sboxes (i_aes I).
Let HI := io_field _ _ _ OK.
Notation E := (elt (lambda I)).
Notation ks := (key_size (i_aes I)).
Notation sb := (num_sboxes (i_aes I)).
Notation lam := (lambda I).
Notation n := (num_parties I).
Notation T := (num_rounds I).
Notation M1 := (m1 I).
Notation M2 := (m2 I).

(** AES on any shares *)
Lemma key_of (pk : bytes) (keys invs ins outs : nat -> bytes) : str (2 * pt_size I) pk ->
  (forall p, p < n -> str ks (keys p)) -> (forall p, p < n -> str sb (invs p)) ->
  aes_s_shares ks (map keys (seq 0 n)) (map invs (seq 0 n)) (slice pk 0 (pt_size I)) sb = Ok (map (fun p => (outs p, ins p)) (seq 0 n)) ->
  xall (pt_size I) (map outs (seq 0 n)) = slice pk (pt_size I) (pt_size I) ->
  (forall i, i < sb -> right_pair (bsum sb n ins) (bsum sb n invs) i) -> secret_key_for I pk (bsum ks n keys).
Proof.
  intros Hpk Hk Hi E1 EC RP. set (pt := slice pk 0 (pt_size I)) in *. pose proof (pt_str I pk Hpk) as Hpt. fold pt in Hpt. pose proof (n_pos I c nk OK) as N2.
  assert (SI : shares_in nk (map keys (seq 0 n)) (map invs (seq 0 n)) pt).
  { split; [apply (io_nk _ _ _ OK)|]. split; [destruct n; [lia|discriminate]|]. rewrite !length_map_seq. split; [reflexivity|].
    rewrite <- (io_ks _ _ _ OK), <- (io_sb _ _ _ OK), <- (io_pt _ _ _ OK). repeat split; try apply Hpt;
    apply Forall_map, Forall_forall; intros p Hpn; apply in_seq in Hpn; [apply Hk|apply Hi]; lia. }
  rewrite (aes_shares_eq I c nk OK), (io_sb _ _ _ OK) in E1.
  assert (ES : s_of nk (map (fun p => (outs p, ins p)) (seq 0 n)) = bsum sb n ins).
  { unfold s_of, bsum. rewrite map_map. cbn [snd]. rewrite <- (io_sb _ _ _ OK). reflexivity. }
  assert (ECt : ct_of nk (map (fun p => (outs p, ins p)) (seq 0 n)) = slice pk (pt_size I) (pt_size I)).
  { unfold ct_of. rewrite map_map. cbn [fst]. rewrite <- (io_pt _ _ _ OK). exact EC. }
  pose proof (shares_sound nk _ _ pt _ SI E1) as Q. rewrite ES, ECt, <- (io_sb _ _ _ OK), <- (io_ks _ _ _ OK) in Q. fold (bsum sb n invs) in Q. fold (bsum ks n keys) in Q.
  specialize (Q RP). assert (SK : str ks (bsum ks n keys)) by (apply bsum_str; exact Hk).
  pose proof (inst_aes_in I c nk _ pt OK SK Hpt) as Hin.
  destruct (records_some _ _ _ (slice pk (pt_size I) (pt_size I)) (aes_records _ _ _ Hin)) as (_ & EC' & _); [rewrite Q; reflexivity|].
  assert (NK : ks / 4 = nk) by (rewrite (io_ks _ _ _ OK), Nat.mul_comm; apply Nat.div_mul; lia).
  split; [apply SK|]. split; [apply SK|]. exists pt. split; [apply Hpt|]. split; [apply Hpt|]. rewrite NK, <- EC'. unfold pt. clear -Hpk. destruct Hpk as [L _].
  unfold slice. rewrite skipn_O. rewrite (firstn_all2 (n := pt_size I) (skipn _ pk)) by (rewrite skipn_length; lia). symmetry. apply firstn_skipn.
Qed.

(** an evaluation of all parties *)
Section Eval.
Variables (salt pt : bytes) (e : nat) (pf : rep_proof) (rs : list N) (R : N) (seed : nat -> bytes).
Hypothesis Hpt : str (pt_size I) pt.
Hypothesis SH : proof_shape I pf.
Hypothesis Lr : length rs = M1.
Hypothesis Er : Forall E rs.
Hypothesis HR : E R.
Definition tape_of p := stream H (2 * seed_size I =? 32) (seed p ++ salt ++ le16 e ++ le16 p) 0 (tape_size I).
Definition key_at (t : bytes) p := let sh := slice t 0 ks in if p =? 0 then xorl (p_sk_delta pf) sh else sh.
Definition inv_at (t : bytes) p := let sh := slice t ks sb in if p =? 0 then xorl (p_t_delta pf) sh else sh.
Lemma tape_of_ok p : tape_ok I (tape_of p).
Proof. split; [apply stream_length|apply stream_bytes]. Qed.
Lemma key_at_str t p : tape_ok I t -> str ks (key_at t p).
Proof.
  intros Ht. pose proof (tape_str I 0 ks (key_off0 I) t Ht) as [L B]. unfold key_at. cbv zeta. destruct (p =? 0); [|split; assumption].
  apply str_xorl; [apply (ps_sk _ _ SH)|split; assumption].
Qed.
Lemma inv_at_str t p : tape_ok I t -> str sb (inv_at t p).
Proof.
  intros Ht. pose proof (tape_str I ks sb (key_off I) t Ht) as [L B]. unfold inv_at. cbv zeta. destruct (p =? 0); [|split; assumption].
  apply str_xorl; [apply (ps_t _ _ SH)|split; assumption].
Qed.
Lemma eval_exists : exists y, evaluation H I c salt pt e pf rs R seed y.
Proof.
  destruct (lagr1 I c nk OK) as [pre1 G1]. destruct (lagr2 I c nk OK) as [pre2 G2].
  set (key p := key_at (tape_of p) p). set (inv p := inv_at (tape_of p) p).
  assert (Hk : forall p, p < n -> str ks (key p)) by (intros p _; apply key_at_str, tape_of_ok).
  assert (Hi : forall p, p < n -> str sb (inv p)) by (intros p _; apply inv_at_str, tape_of_ok).
  assert (Hpt' : str (16 * nblocks nk) pt) by (rewrite <- (io_pt _ _ _ OK); exact Hpt).
  set (out p := fst (aes_out nk pt key inv p)). set (inn p := snd (aes_out nk pt key inv p)).
  assert (Hin : forall p, p < n -> str sb (inn p)) by (intros p Hp; apply (aes_out_str I c nk OK pt key inv p Hpt' (Hk p Hp) (Hi p Hp))).
  exists (mkRV rs R 0 (fun _ => []) (fun _ => []) tape_of key inv inn out
    (fun p j => inner c (M2 + 1) (fun k => lag c pre1 k R) (s_pt I c rs (inn p) (tape_of p) j))
    (fun p j => inner c (M2 + 1) (fun k => lag c pre1 k R) (t_pt I c (inv p) (tape_of p) j))
    (fun p => inner c (2 * M2 + 1) (fun k => lag c pre2 k R) (P_adj I rs (p_P_delta pf) p (tape_of p)))).
  constructor; cbn [x_tape x_key x_inv x_in x_out x_S x_T x_P].
  - reflexivity.
  - reflexivity.
  - reflexivity.
  - rewrite (aes_shares_ok I c nk OK pt key inv Hpt' Hk Hi). f_equal. apply map_ext. intros p. unfold out, inn. apply surjective_pairing.
  - intros p j Hp Hj. apply (through_S I c nk OK pre1 G1 rs (inn p) (tape_of p) j R); auto using tape_of_ok.
  - intros p j Hp Hj. apply (through_T I c nk OK pre1 G1 (inv p) (tape_of p) j R); auto using tape_of_ok.
  - intros p Hp. apply (through_P I c nk OK pre2 G2 rs (p_P_delta pf) p (tape_of p) R); auto using tape_of_ok. apply (ps_P _ _ SH).
Qed.

Variable y : rep_values.
Hypothesis EV : evaluation H I c salt pt e pf rs R seed y.
Lemma ev_tape_ok p : p < n -> tape_ok I (x_tape y p).
Proof. intros Hp. rewrite (ev_tape _ _ _ _ _ _ _ _ _ _ _ EV p Hp). split; [apply stream_length|apply stream_bytes]. Qed.
Lemma ev_key_str p : p < n -> str ks (x_key y p).
Proof. intros Hp. rewrite (ev_key _ _ _ _ _ _ _ _ _ _ _ EV p Hp). apply key_at_str, ev_tape_ok, Hp. Qed.
Lemma ev_inv_str p : p < n -> str sb (x_inv y p).
Proof. intros Hp. rewrite (ev_inv _ _ _ _ _ _ _ _ _ _ _ EV p Hp). apply inv_at_str, ev_tape_ok, Hp. Qed.
Lemma ev_pn p : p < n -> (x_out y p, x_in y p) = Pn nk (p =? 0) (x_key y p) (x_inv y p) pt.
Proof.
  intros Hp. pose proof (ev_aes _ _ _ _ _ _ _ _ _ _ _ EV) as A. rewrite (aes_shares_ok I c nk OK pt (x_key y) (x_inv y)) in A.
  - injection A as A. apply (f_equal (fun l => nth p l ([], []))) in A. rewrite !nth_map_seq in A by exact Hp. symmetry. exact A.
  - rewrite <- (io_pt _ _ _ OK). exact Hpt.
  - apply ev_key_str.
  - apply ev_inv_str.
Qed.
Lemma ev_in_str p : p < n -> str sb (x_in y p).
Proof.
  intros Hp. assert (Hpt' : str (16 * nblocks nk) pt) by (rewrite <- (io_pt _ _ _ OK); exact Hpt).
  destruct (aes_out_str I c nk OK pt (x_key y) (x_inv y) p Hpt' (ev_key_str p Hp) (ev_inv_str p Hp)) as [_ Q]. unfold aes_out in Q. rewrite <- (ev_pn p Hp) in Q. exact Q.
Qed.
End Eval.

(** the polynomial through given values has one value at R *)
Lemma through_one xs pre ys R a b : lagr lam c xs pre -> E R -> Forall E xs -> length ys = length xs -> Forall E ys ->
  through I c xs ys R a -> through I c xs ys R b -> a = b.
Proof. intros G HR Hx L F A B. apply (through_iff I c HI xs pre ys R a G HR Hx L F) in A. apply (through_iff I c HI xs pre ys R b G HR Hx L F) in B. congruence. Qed.

(** an accepted signature *)
Variables (sig : signature) (pk msg : bytes) (X : nat -> rep_values).
Hypothesis Hpk : str (2 * pt_size I) pk.
Hypothesis SS : sig_shape I sig.
Hypothesis TR : is_transcript H I c pk sig X.
Hypothesis AC : accepts H I c pk msg sig X.
Variables (e : nat) (seed : nat -> bytes) (y : rep_values).
Hypothesis He : e < T.
Notation x := (X e).
Notation m := (x_hidden x).
Notation pf := (pf_of sig e).
Notation RO := (tr_reps _ _ _ _ _ _ TR e He).
Hypothesis EV : evaluation H I c (s_salt sig) (slice pk 0 (pt_size I)) e pf (x_coef x) (x_point x) seed y.
Lemma coef_len : length (x_coef x) = M1.
Proof. rewrite (ro_coef _ _ _ _ _ _ _ _ _ _ _ RO). apply length_map_seq. Qed.
Lemma coef_el : Forall E (x_coef x).
Proof. rewrite (ro_coef _ _ _ _ _ _ _ _ _ _ _ RO). apply (coef_E H I c nk OK). Qed.
Lemma point_el : E (x_point x).
Proof. apply (point_elt H I c nk k0 OK HP Hk8 pk sig X e TR He). Qed.
Let SH := pf_shape I sig SS e He.
Let Hpt := pt_str I pk Hpk.

Lemma opened_same p : p < n -> p <> m -> x_node x (first_leaf n + p) = seed p -> ~ deviates I x y p.
Proof.
  intros Hp Np ES. pose proof coef_len as Lr. pose proof coef_el as Er. pose proof point_el as HR.
  assert (ET : x_tape x p = x_tape y p) by (rewrite (ro_tape _ _ _ _ _ _ _ _ _ _ _ RO p Hp Np), (ev_tape _ _ _ _ _ _ _ _ _ _ _ EV p Hp), ES; reflexivity).
  assert (EK : x_key x p = x_key y p) by (rewrite (ro_key _ _ _ _ _ _ _ _ _ _ _ RO p Hp Np), (ev_key _ _ _ _ _ _ _ _ _ _ _ EV p Hp), ET; reflexivity).
  assert (EI : x_inv x p = x_inv y p) by (rewrite (ro_inv _ _ _ _ _ _ _ _ _ _ _ RO p Hp Np), (ev_inv _ _ _ _ _ _ _ _ _ _ _ EV p Hp), ET; reflexivity).
  pose proof (aes_at I c nk OK pk Hpk H sig X e TR He p Hp Np) as A. rewrite EK, EI in A.
  rewrite <- (ev_pn _ _ _ _ _ _ _ Hpt SH y EV p Hp) in A. injection A as EO EN.
  pose proof (ev_tape_ok _ _ _ _ _ _ _ y EV p Hp) as TK. pose proof (ev_in_str _ _ _ _ _ _ _ Hpt SH y EV p Hp) as IS. pose proof (ev_inv_str _ _ _ _ _ _ _ SH y EV p Hp) as VS.
  destruct (lagr1 I c nk OK) as [pre1 G1]. destruct (lagr2 I c nk OK) as [pre2 G2].
  intros [D|[D|(j & Hj & [D|D])]]; apply D.
  - symmetry. exact EO.
  - pose proof (ro_P _ _ _ _ _ _ _ _ _ _ _ RO p Hp Np) as Z. rewrite ET in Z. pose proof (ev_P _ _ _ _ _ _ _ _ _ _ _ EV p Hp) as W.
    apply (through_P I c nk OK pre2 G2 (x_coef x) (p_P_delta pf) p (x_tape y p) (x_point x) _ Lr Er (proj2 (ps_P _ _ SH)) TK HR) in Z.
    apply (through_P I c nk OK pre2 G2 (x_coef x) (p_P_delta pf) p (x_tape y p) (x_point x) _ Lr Er (proj2 (ps_P _ _ SH)) TK HR) in W. congruence.
  - pose proof (ro_S _ _ _ _ _ _ _ _ _ _ _ RO p j Hp Np Hj) as Z. rewrite ET, <- EN in Z. pose proof (ev_S _ _ _ _ _ _ _ _ _ _ _ EV p j Hp Hj) as W.
    apply (through_S I c nk OK pre1 G1 (x_coef x) (x_in y p) (x_tape y p) j (x_point x) _ IS TK Hj HR) in Z.
    apply (through_S I c nk OK pre1 G1 (x_coef x) (x_in y p) (x_tape y p) j (x_point x) _ IS TK Hj HR) in W. congruence.
  - pose proof (ro_T _ _ _ _ _ _ _ _ _ _ _ RO p j Hp Np Hj) as Z. rewrite ET, EI in Z. pose proof (ev_T _ _ _ _ _ _ _ _ _ _ _ EV p j Hp Hj) as W.
    apply (through_T I c nk OK pre1 G1 (x_inv y p) (x_tape y p) j (x_point x) _ VS TK Hj HR) in Z.
    apply (through_T I c nk OK pre1 G1 (x_inv y p) (x_tape y p) j (x_point x) _ VS TK Hj HR) in W. congruence.
Qed.

Lemma deviates_dec p : deviates I x y p \/ ~ deviates I x y p.
Proof.
  destruct (list_eq_dec N.eq_dec (x_out x p) (x_out y p)) as [A|A]; [|left; left; exact A].
  destruct (N.eq_dec (x_P x p) (x_P y p)) as [B|B]; [|left; right; left; exact B].
  destruct (all_or_one (fun j => N.eqb (x_S x p j) (x_S y p j) && N.eqb (x_T x p j) (x_T y p j)) M1) as [Q|(j & Hj & Q)].
  - right. intros [D|[D|(j & Hj & D)]]; [auto|auto|]. specialize (Q j Hj). apply andb_true_iff in Q. destruct Q as [Q1 Q2]. apply N.eqb_eq in Q1, Q2. destruct D; auto.
  - left. right. right. exists j. split; [exact Hj|]. apply andb_false_iff in Q. destruct Q as [Q|Q]; apply N.eqb_neq in Q; auto.
Qed.

Lemma all_same : (forall p, p < n -> ~ deviates I x y p) ->
  secret_key_for I pk (all_key I y) \/ bad_coefs I c (x_coef x) (all_in I y) (all_inv I y) \/
  bad_point I c (x_coef x) (all_in I y) (all_inv I y) (all_tape I y) (fun k => nth k (p_P_delta pf) 0%N) (x_point x).
Proof.
  intros ND. pose proof coef_len as Lr. pose proof coef_el as Er. pose proof point_el as HR.
  assert (EO : forall p, p < n -> x_out x p = x_out y p) by (intros p Hp; destruct (list_eq_dec N.eq_dec (x_out x p) (x_out y p)) as [Q|Q]; [exact Q|destruct (ND p Hp); left; exact Q]).
  assert (EP : forall p, p < n -> x_P x p = x_P y p) by (intros p Hp; destruct (N.eq_dec (x_P x p) (x_P y p)) as [Q|Q]; [exact Q|destruct (ND p Hp); right; left; exact Q]).
  assert (ES : forall p j, p < n -> j < M1 -> x_S x p j = x_S y p j) by (intros p j Hp Hj; destruct (N.eq_dec (x_S x p j) (x_S y p j)) as [Q|Q]; [exact Q|destruct (ND p Hp); right; right; exists j; auto]).
  assert (ET : forall p j, p < n -> j < M1 -> x_T x p j = x_T y p j) by (intros p j Hp Hj; destruct (N.eq_dec (x_T x p j) (x_T y p j)) as [Q|Q]; [exact Q|destruct (ND p Hp); right; right; exists j; auto]).
  destruct (pairs_checked I c nk k0 OK HP Hk8 MM (x_coef x) (x_point x) (x_in y) (x_inv y) (x_tape y) (p_P_delta pf) (x_S x) (x_T x) (x_P x) Lr Er) as [W|[W|W]].
  - exact HR.
  - apply (ps_P _ _ SH).
  - intros p Hp. apply (ev_in_str _ _ _ _ _ _ _ Hpt SH y EV p Hp).
  - intros p Hp. apply (ev_inv_str _ _ _ _ _ _ _ SH y EV p Hp).
  - intros p Hp. apply (ev_tape_ok _ _ _ _ _ _ _ _ EV p Hp).
  - intros p j Hp Hj. rewrite ES by assumption. exact (ev_S _ _ _ _ _ _ _ _ _ _ _ EV p j Hp Hj).
  - intros p j Hp Hj. rewrite ET by assumption. exact (ev_T _ _ _ _ _ _ _ _ _ _ _ EV p j Hp Hj).
  - intros p Hp. rewrite EP by assumption. exact (ev_P _ _ _ _ _ _ _ _ _ _ _ EV p Hp).
  - pose proof (ac_rel _ _ _ _ _ _ _ AC e He) as Z. refine (eq_trans _ (eq_trans Z _)).
    + apply gsum_ext. intros j Hj. f_equal; [exact (ro_sum_S _ _ _ _ _ _ _ _ _ _ _ RO j Hj)|exact (ro_sum_T _ _ _ _ _ _ _ _ _ _ _ RO j Hj)].
    + symmetry. exact (ro_sum_P _ _ _ _ _ _ _ _ _ _ _ RO).
  - left. apply (key_of pk (x_key y) (x_inv y) (x_in y) (x_out y) Hpk).
    + intros p Hp. apply (ev_key_str _ _ _ _ _ _ _ SH y EV p Hp).
    + intros p Hp. apply (ev_inv_str _ _ _ _ _ _ _ SH y EV p Hp).
    + exact (ev_aes _ _ _ _ _ _ _ _ _ _ _ EV).
    + rewrite <- (ro_cipher _ _ _ _ _ _ _ _ _ _ _ RO). f_equal. apply map_seq_ext. intros p Hp. symmetry. apply EO. lia.
    + exact W.
  - right. left. exact W.
  - right. right. exact W.
Qed.
End Online.
