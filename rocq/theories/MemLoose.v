(** Signature objects of any shape, with flat buffers: which part is read, which lengths matter, and what becomes of a
    commitment that is longer than its slot (C73, C76). *)
From Coq Require Import Arith NArith List Bool Lia.
From Verif Require Import Prelude ListSum FieldModel PolyModel Instances HashModel TreeModel AesModel AesShares ContainerModel BanquetModel MemModel LooseSpec LooseFacts.
Import ListNotations.

(** ** congruence under same_read *)
Section Same.
Variables (H : oracle) (I : instance) (s s' : signature).
Hypothesis SR : same_read I s s'.
Ltac inseq := match goal with J : In _ (seq 0 _) |- _ => apply in_seq in J end.
Section Field.
Variable c : fctx.
Lemma m_same_setup salt p q rep m x : same_part I p q -> m_verify_setup H I salt p rep m x = m_verify_setup H I salt q rep m x.
Proof. intros (Er & Ec & _). unfold m_verify_setup. rewrite Er, Ec. reflexivity. Qed.
Lemma m_same_phase1 pt ct p q m tp rep h : same_part I p q -> m_verify_phase1 I pt ct p m tp rep h = m_verify_phase1 I pt ct q m tp rep h.
Proof. intros (_ & _ & Ek & Et & _). unfold m_verify_phase1. rewrite Ek, Et. reflexivity. Qed.
Lemma m_same_phase5 pre1 pre2 R p q m ph rep ab : same_part I p q -> m_verify_phase5 I c pre1 pre2 R p m ph rep ab = m_verify_phase5 I c pre1 pre2 R q m ph rep ab.
Proof.
  intros (_ & _ & _ & _ & EP & _ & ES & ET). unfold m_verify_phase5. rewrite EP.
  assert (X : mapM (get (p_S_at_R p)) (seq 0 (m1 I)) = mapM (get (p_S_at_R q)) (seq 0 (m1 I))) by (apply mapM_ext; intros j J; inseq; apply (get_prefix _ _ _ j ES); lia).
  assert (Y : mapM (get (p_T_at_R p)) (seq 0 (m1 I)) = mapM (get (p_T_at_R q)) (seq 0 (m1 I))) by (apply mapM_ext; intros j J; inseq; apply (get_prefix _ _ _ j ET); lia).
  rewrite X, Y. reflexivity.
Qed.
Lemma m_same_phase_1_ctx salt pk msg coms bc :
  m_phase_1_ctx I salt pk msg coms (map p_sk_delta (s_proofs s)) (map p_t_delta (s_proofs s)) bc =
  m_phase_1_ctx I salt pk msg coms (map p_sk_delta (s_proofs s')) (map p_t_delta (s_proofs s')) bc.
Proof.
  unfold m_phase_1_ctx. apply bind_ext2; [|reflexivity]. apply mapM_ext. intros e J. inseq. apply bind_ext. intros ps.
  apply (get_field I s s' SR); [lia|]. intros p q (_ & _ & -> & _). apply (get_field I s s' SR); [lia|]. intros p' q' (_ & _ & _ & -> & _). reflexivity.
Qed.
Lemma m_same_contexts fuel garb pk msg : m_verify_contexts H I c fuel garb pk s msg = m_verify_contexts H I c fuel garb pk s' msg.
Proof.
  destruct SR as (Es & E1 & E3 & _). unfold m_verify_contexts. rewrite Es, E1, E3, (same_phase_2 H I s s' SR). apply bind_ext. intros pt. apply bind_ext. intros ct. apply bind_ext. intros h2.
  apply bind_ext. intros rss. apply bind_ext. intros Rs. apply bind_ext. intros ms. apply bind_ext2.
  { apply foldM_ext_seq. intros b e J. inseq. apply (get_part I s s' SR); [lia|]. intros p q PQ. apply bind_ext. intros m. apply m_same_setup. exact PQ. }
  intros [coms tapes]. apply bind_ext2.
  { apply foldM_ext_seq. intros b e J. inseq. apply (get_part I s s' SR); [lia|]. intros p q PQ. apply bind_ext. intros m. apply m_same_phase1. exact PQ. }
  intros h. apply bind_ext. intros pre1. apply bind_ext. intros pre2. apply bind_ext2.
  { apply mapM_ext. intros e J. inseq. apply (get_part I s s' SR); [lia|]. intros p q PQ. do 5 (apply bind_ext; intros ?). apply same_phase3. exact PQ. }
  intros ph3. apply bind_ext2.
  { apply foldM_ext_seq. intros [[o cs] ab] e J. inseq. apply (get_part I s s' SR); [lia|]. intros p q PQ. do 3 (apply bind_ext; intros ?). rewrite (m_same_phase5 _ _ _ p q _ _ _ _ PQ). reflexivity. }
  intros [[o cs] ab]. rewrite m_same_phase_1_ctx. reflexivity.
Qed.
Lemma m_same_body fuel garb pk msg : m_verify_body H I c fuel garb pk s msg = m_verify_body H I c fuel garb pk s' msg.
Proof.
  unfold m_verify_body. rewrite m_same_contexts. apply bind_ext. intros [ctx1 ctx3]. destruct SR as (_ & E1 & E3 & _). rewrite E1, E3. apply bind_ext. intros b. destruct (negb b); [reflexivity|].
  apply bind_ext. intros b'. destruct (negb b'); [reflexivity|]. apply (same_relations I s s' SR). intros e J. inseq. lia.
Qed.
End Field.
Lemma m_same_verify fuel garb st pk msg : m_verify H fuel garb st I pk s msg = m_verify H fuel garb st I pk s' msg.
Proof.
  unfold m_verify, with_field. destruct (st_init st (lambda I)) as [st' r]. destruct r as [[]| | |]; try reflexivity. destruct st' as [c|]; [|reflexivity]. rewrite m_same_body. reflexivity.
Qed.
End Same.

(** ** writes keep the shape of a vector and stay inside *)
Definition sized {A} (c : container A) (R n sz : nat) : Prop :=
  k_reps c = R /\ k_parties c = n /\ k_size c = sz /\ length (k_data c) = R * n * sz.
Lemma sized_new {A} (d : A) R n sz : sized (k_new d R n sz) R n sz.
Proof. unfold sized, k_new. cbn. rewrite repeat_length. auto. Qed.
Lemma put_sized {A} (c c' : container A) r p v R n sz : k_put c r p v = Ok c' -> sized c R n sz ->
  sized c' R n sz /\ r * n * sz + p * sz + length v <= R * n * sz.
Proof.
  unfold k_put, k_write. intros E (E1 & E2 & E3 & E4). unfold k_offset in E. rewrite E2, E3 in E.
  destruct (Nat.leb_spec (r * n * sz + p * sz + length v) (length (k_data c))) as [L|]; [|discriminate E]. injection E as <-.
  split; [|lia]. unfold sized. cbn [k_reps k_parties k_size k_data]. rewrite !app_length, firstn_length, skipn_length. repeat split; auto; lia.
Qed.
Lemma xor_sized (c c' : container N) r p v R n sz : m_xor c r p v = Ok c' -> sized c R n sz -> sized c' R n sz /\ r * n * sz + p * sz + length v <= R * n * sz.
Proof.
  unfold m_xor. intros E S. apply bind_ok in E as (old & E0 & E). destruct (put_sized _ _ _ _ _ _ _ _ E S) as [S' L]. split; [exact S'|].
  destruct S as (E1 & E2 & E3 & E4). unfold read, k_offset in E0. rewrite E2, E3 in E0.
  destruct (Nat.leb_spec (r * n * sz + p * sz + length v) (length (k_data c))) as [Q|]; [lia|discriminate E0].
Qed.
Lemma foldM_keeps {A S} (P : S -> Prop) (f : S -> A -> res S) l : (forall s a s', P s -> f s a = Ok s' -> P s') -> forall s s', P s -> foldM f l s = Ok s' -> P s'.
Proof.
  intros HF. induction l as [|a l IH]; intros s s' HP E; cbn [foldM] in E; [injection E as <-; exact HP|].
  apply bind_ok in E as (s1 & E1 & E). exact (IH s1 s' (HF _ _ _ HP E1) E).
Qed.
Lemma foldM_at {A S} (P : S -> Prop) (f : S -> A -> res S) l : (forall s a s', P s -> f s a = Ok s' -> P s') -> forall s s', P s -> foldM f l s = Ok s' ->
  forall a, In a l -> exists x y, P x /\ f x a = Ok y.
Proof.
  intros HF. induction l as [|a l IH]; intros s s' HP E i J; [destruct J|]. cbn [foldM] in E. apply bind_ok in E as (s1 & E1 & E).
  destruct J as [<-|J]; [exists s, s1; auto|]. exact (IH s1 s' (HF _ _ _ HP E1) E i J).
Qed.
Lemma loop4_keeps {S} (P : S -> Prop) n (f4 f1 : S -> nat -> res S) s s' : (forall s a s', P s -> f4 s a = Ok s' -> P s') -> (forall s a s', P s -> f1 s a = Ok s' -> P s') ->
  P s -> loop4 n f4 f1 s = Ok s' -> P s'.
Proof. intros H4 H1 HP E. unfold loop4 in E. apply bind_ok in E as (s1 & E1 & E). exact (foldM_keeps P _ _ H1 _ _ (foldM_keeps P _ _ H4 _ _ HP E1) E). Qed.
Lemma copy_sized {A} (c c' : container A) r p v R n sz : m_copy c r p v = Ok c' -> sized c R n sz -> sized c' R n sz.
Proof. intros E S. exact (proj1 (put_sized _ _ _ _ _ _ _ _ E S)). Qed.
Lemma copy4_sized (c c' : container N) rep idx vs R n sz : m_copy4 c rep idx vs = Ok c' -> sized c R n sz -> sized c' R n sz.
Proof.
  intros E S. refine (foldM_keeps (fun c => sized c R n sz) _ _ _ _ _ S E). intros s a s' S' E'. cbv beta in E'. apply bind_ok in E' as (v & _ & E'). exact (copy_sized _ _ _ _ _ _ _ _ E' S').
Qed.

Section Needs.
Variables (H : oracle) (I : instance).
Local Notation n := (num_parties I).
Local Notation T := (num_rounds I).
Local Notation ks := (key_size (i_aes I)).
Local Notation sb := (num_sboxes (i_aes I)).
Local Notation ds := (digest_size I).
Ltac bk E := let x := fresh "x" in let X := fresh "X" in apply bind_ok in E as (x & X & E).

Definition sized2 (m : container N * container N) : Prop := sized (fst m) T n ds /\ sized (snd m) T n (tape_size I).
(** the commitments up to the write of the signature's *)
Definition coms_before (salt : bytes) (t : tree) (rep missing : nat) (coms : container N) : res (container N) :=
  let leaf_or := fun p => do o <- get_leaf t p; Ok (value_or o (zeros (seed_size I))) in
  loop4 n
    (fun coms p => do s0 <- leaf_or p; do s1 <- leaf_or (p + 1); do s2 <- leaf_or (p + 2); do s3 <- leaf_or (p + 3);
                   do vs <- commit_to_4_party_seeds H I s0 s1 s2 s3 salt rep p; m_copy4 coms rep (fun i => p + i) vs)
    (fun coms p => if p =? missing then Ok coms
                   else do o <- get_leaf t p; do s <- value o; m_copy coms rep p (commit_to_party_seed H I s salt rep p)) coms.
Lemma coms_before_sized salt t rep missing c c' R k sz : coms_before salt t rep missing c = Ok c' -> sized c R k sz -> sized c' R k sz.
Proof.
  intros E S. unfold coms_before in E. refine (loop4_keeps (fun c => sized c R k sz) n _ _ _ _ _ _ S E); intros s a s' S' E'; cbv beta in E'.
  - do 5 bk E'. exact (copy4_sized _ _ _ _ _ _ _ _ E' S').
  - destruct (a =? missing); [injection E' as <-; exact S'|]. do 2 bk E'. exact (copy_sized _ _ _ _ _ _ _ _ E' S').
Qed.
Lemma setup_inv salt proof rep missing m m' : m_verify_setup H I salt proof rep missing m = Ok m' -> sized2 m ->
  sized2 m' /\ missing = snd (p_reveal proof) /\ rep * n * ds + missing * ds + length (p_C proof) <= T * n * ds.
Proof.
  destruct m as [coms tapes]. intros E [S1 S2]. cbn [fst snd] in S1, S2. unfold m_verify_setup in E.
  destruct (Nat.eqb_spec missing (snd (p_reveal proof))) as [->|]; [|discriminate E]. cbn [negb] in E. cbv zeta in E.
  bk E. apply bind_ok in E as (c1 & C1 & E). apply bind_ok in E as (c2 & C2 & E). apply bind_ok in E as (t1 & T1 & E). injection E as <-.
  assert (S3 : sized c1 T n ds) by exact (coms_before_sized salt x rep _ coms c1 _ _ _ C1 S1).
  destruct (put_sized _ _ _ _ _ _ _ _ C2 S3) as [S4 L]. split; [|auto]. split; cbn [fst snd]; [exact S4|].
  refine (loop4_keeps (fun c => sized c T n (tape_size I)) n _ _ _ _ _ _ S2 T1); intros s a s' S' E'; cbv beta in E'.
  - do 5 bk E'. exact (copy4_sized _ _ _ _ _ _ _ _ E' S').
  - bk E'. exact (copy_sized _ _ _ _ _ _ _ _ E' S').
Qed.
Definition sized_h (h : shares) : Prop := sized (h_keys h) T n ks /\ sized (h_t h) T n sb.
Lemma tape_shares_sized tapes rep off len c c' R k sz : m_tape_shares I tapes rep off len c = Ok c' -> sized c R k sz -> sized c' R k sz.
Proof.
  intros E S. refine (foldM_keeps (fun c => sized c R k sz) _ _ _ _ _ S E). intros s a s' S' E'. cbv beta in E'. bk E'. exact (copy_sized _ _ _ _ _ _ _ _ E' S').
Qed.
Lemma phase1_inv pt ct proof missing tapes rep h h' : m_verify_phase1 I pt ct proof missing tapes rep h = Ok h' -> sized_h h ->
  sized_h h' /\ In ks [16; 24; 32] /\ rep * n * ks + length (p_sk_delta proof) <= T * n * ks /\ rep * n * sb + length (p_t_delta proof) <= T * n * sb.
Proof.
  intros E [S1 S2]. unfold m_verify_phase1 in E. apply bind_ok in E as (k1 & K1 & E). apply bind_ok in E as (k2 & K2 & E). apply bind_ok in E as (t1 & T1 & E). apply bind_ok in E as (t2 & T2 & E).
  apply bind_ok in E as (h1 & E1 & E). do 2 bk E. injection E as <-.
  destruct (xor_sized _ _ _ _ _ _ _ _ K2 (tape_shares_sized _ _ _ _ _ _ _ _ _ K1 S1)) as [S3 L3]. destruct (xor_sized _ _ _ _ _ _ _ _ T2 (tape_shares_sized _ _ _ _ _ _ _ _ _ T1 S2)) as [S4 L4].
  unfold m_aes in E1. do 2 bk E1. apply bind_ok in E1 as (out & Eo & E1). do 2 bk E1. injection E1 as <-. cbn [h_keys h_t].
  split; [split; assumption|]. split; [|lia].
  unfold aes_s_shares in Eo. apply bind_ok in Eo as (f & Y & _). unfold by_key_size in Y.
  destruct (Nat.eqb_spec ks 16) as [->|_]; [left; reflexivity|]. destruct (Nat.eqb_spec ks 24) as [->|_]; [right; left; reflexivity|].
  destruct (Nat.eqb_spec ks 32) as [->|_]; [right; right; left; reflexivity|]. discriminate Y.
Qed.
Lemma m_contexts_need c fuel garb pk sig msg r : m_verify_contexts H I c fuel garb pk sig msg = Ok r ->
  T <= length (s_proofs sig) /\ (1 <= T -> In ks [16; 24; 32]) /\
  (forall e p, e < T -> nth_error (s_proofs sig) e = Some p -> long_enough I p /\ inside I e p).
Proof.
  intros E. unfold m_verify_contexts in E. do 2 bk E. apply bind_ok in E as (h2 & E2 & E). do 3 bk E.
  apply bind_ok in E as ([coms tapes] & Est & E). apply bind_ok in E as (h & Eh & E). do 2 bk E. apply bind_ok in E as (ph3 & Eph3 & E). apply bind_ok in E as (y & Eph5 & _).
  unfold phase_2_commitment, phase_2_ctx in E2. apply bind_ok in E2 as (ctx2 & E2 & _). apply bind_ok in E2 as (parts & E2 & _).
  assert (S2 : forall e, e < T -> exists m m', sized2 m /\ (do proof <- get (s_proofs sig) e; do mi <- get x3 e; m_verify_setup H I (s_salt sig) proof e mi m) = Ok m').
  { intros e He. refine (foldM_at sized2 _ _ _ _ _ _ Est e _); [|split; apply sized_new|apply in_seq; lia].
    intros s a s' S' E'. cbv beta in E'. do 2 bk E'. exact (proj1 (setup_inv _ _ _ _ _ _ E' S')). }
  assert (S1 : forall e, e < T -> exists m m', sized_h m /\ (do proof <- get (s_proofs sig) e; do mi <- get x3 e; m_verify_phase1 I x x0 proof mi tapes e m) = Ok m').
  { intros e He. refine (foldM_at sized_h _ _ _ _ _ _ Eh e _); [|split; apply sized_new|apply in_seq; lia].
    intros s a s' S' E'. cbv beta in E'. do 2 bk E'. exact (proj1 (phase1_inv _ _ _ _ _ _ _ _ E' S')). }
  split; [|split].
  - destruct (num_rounds I) as [|k] eqn:ET; [lia|]. destruct (mapM_seq_each _ _ _ E2 k) as [y' Y]; [lia|]. apply bind_ok in Y as (row & Y & _). apply get_inv in Y. rewrite map_length in Y. lia.
  - intros HT. destruct (S1 0 HT) as (m & m' & Sm & Y). do 2 bk Y. exact (proj1 (proj2 (phase1_inv _ _ _ _ _ _ _ _ Y Sm))).
  - intros e p He Ep. assert (G : get (s_proofs sig) e = Ok p) by (unfold get; rewrite Ep; reflexivity).
    destruct (mapM_seq_each _ _ _ E2 e He) as [y2 Y2]. apply bind_ok in Y2 as (row & Erow & Y2). unfold get in Erow. rewrite nth_error_map, Ep in Erow. injection Erow as <-. apply bind_ok in Y2 as (bs & Y2 & _).
    destruct (S2 e He) as (a & a' & Sa & Ys). rewrite G in Ys. cbn [bind] in Ys. apply bind_ok in Ys as (m & Em & Ys). destruct (setup_inv _ _ _ _ _ _ Ys Sa) as (_ & DM & LC).
    destruct (S1 e He) as (b & b' & Sb & Y1). rewrite G, Em in Y1. cbn [bind] in Y1. destruct (phase1_inv _ _ _ _ _ _ _ _ Y1 Sb) as (_ & _ & LK & LT).
    destruct (mapM_seq_each _ _ _ Eph3 e He) as [y3 Y3]. rewrite G, Em in Y3. cbn [bind] in Y3. do 4 bk Y3.
    destruct (foldM_at (fun _ => True) _ _ (fun _ _ _ _ _ => Logic.I) _ _ Logic.I Eph5 e) as ([[o cs] ab] & y5 & _ & Y5); [apply in_seq; lia|]. rewrite G, Em in Y5. cbn [bind] in Y5. do 2 bk Y5. apply bind_ok in Y5 as (y5' & Y5 & _).
    assert (D2 : m2 I <= length (p_P_delta p)).
    { destruct (m2 I) as [|k]; [lia|]. destruct (mapM_seq_each _ _ _ Y2 k) as [x' X']; [lia|]. apply bind_ok in X' as (v & X' & _). apply get_inv in X'. lia. }
    assert (D3 : m <> 0 -> m2 I + 1 <= length (p_P_delta p)).
    { intros Hm. unfold verify_phase3 in Y3. do 2 bk Y3. apply bind_ok in Y3 as (sh & Y3 & _). destruct (Nat.eqb_spec 0 m) as [Q|_]; [congruence|].
      unfold adjust_first in Y3. apply bind_ok in Y3 as (f & _ & Y3). apply bind_ok in Y3 as (f' & Y3 & _). destruct (foldM_each _ _ _ _ Y3 (m2 I)) as (u & v & U); [apply in_seq; lia|].
      apply bind_ok in U as (d & U & _). apply get_inv in U. lia. }
    unfold long_enough, inside. rewrite <- DM. split; [|auto]. split; [destruct (Nat.eqb_spec m 0) as [_|Q]; [lia|apply D3; exact Q]|].
    unfold m_verify_phase5 in Y5. destruct ab as [ab1 ab2]. do 2 bk Y5. apply bind_ok in Y5 as ([[u1 u2] u3] & _ & Y5). bk Y5. apply bind_ok in Y5 as (aa & Ea & Y5). apply bind_ok in Y5 as (bb & Eb & Y5).
    split; [exact (mapM_gets _ _ _ Ea)|exact (mapM_gets _ _ _ Eb)].
Qed.
Lemma m_body_need c fuel garb pk sig msg b : m_verify_body H I c fuel garb pk sig msg = Ok b ->
  T <= length (s_proofs sig) /\ (1 <= T -> In ks [16; 24; 32]) /\
  (forall e p, e < T -> nth_error (s_proofs sig) e = Some p -> long_enough I p /\ inside I e p) /\
  2 * pt_size I <= length pk /\ ds <= length (s_h1 sig) /\ (b = true -> ds <= length (s_h3 sig)).
Proof.
  intros E. unfold m_verify_body in E. apply bind_ok in E as ([c1 c3] & EC & E). destruct (m_contexts_need _ _ _ _ _ _ _ EC) as (A & B & C). split; [exact A|]. split; [exact B|]. split; [exact C|].
  split. { unfold m_verify_contexts in EC. apply bind_ok in EC as (pt & _ & EC). apply bind_ok in EC as (ct & EC & _). unfold read in EC. destruct (Nat.leb_spec (pt_size I + pt_size I) (length pk)); [lia|discriminate EC]. }
  cbv zeta in E. apply bind_ok in E as (e1 & E1 & E). destruct (hash_squeeze H (hash_final c1) ds) as [d1 u1] eqn:Q1. cbn [fst] in E1. apply squeeze_shape in Q1 as [L1 _].
  split; [exact (memcmp_need _ _ _ _ L1 E1)|]. intros ->. destruct e1; [cbn [negb] in E|discriminate E]. apply bind_ok in E as (e3 & E3 & E).
  destruct (hash_squeeze H (hash_final c3) ds) as [d3 u3] eqn:Q3. cbn [fst] in E3. apply squeeze_shape in Q3 as [L3 _]. exact (memcmp_need _ _ _ _ L3 E3).
Qed.
Lemma m_verify_need fuel garb st pk sig msg b : snd (m_verify H fuel garb st I pk sig msg) = Ok b ->
  T <= length (s_proofs sig) /\ (1 <= T -> In ks [16; 24; 32]) /\
  (forall e p, e < T -> nth_error (s_proofs sig) e = Some p -> long_enough I p /\ inside I e p) /\
  2 * pt_size I <= length pk /\ ds <= length (s_h1 sig) /\ (b = true -> ds <= length (s_h3 sig)).
Proof. unfold m_verify, with_field. destruct (st_init st (lambda I)) as [[c|] [[]| | |]]; try discriminate. apply m_body_need. Qed.

Lemma m_few_proofs c fuel garb st pk sig msg : init_extension_field (lambda I) = Ok c -> 2 * pt_size I <= length pk -> length (s_proofs sig) < T ->
  snd (m_verify H fuel garb st I pk sig msg) = UB OutOfBounds.
Proof.
  intros Hc Lp Hn. pose proof (few_proofs H I c fuel garb st pk sig msg Hc Lp Hn) as F.
  revert F. unfold verify, m_verify, with_field, st_init. rewrite Hc. cbn [snd]. unfold verify_body, m_verify_body, verify_contexts, m_verify_contexts, read.
  replace (0 + pt_size I <=? length pk) with true by (symmetry; apply Nat.leb_le; lia). replace (pt_size I + pt_size I <=? length pk) with true by (symmetry; apply Nat.leb_le; lia). cbn [bind].
  unfold phase_2_commitment, phase_2_ctx. rewrite (mapM_fails _ _ (length (s_proofs sig))); [reflexivity| |apply in_seq; lia|].
  - intros e. destruct (get_bounded (map p_P_delta (s_proofs sig)) e) as [[row ->]| ->]; [|right; reflexivity]. cbn [bind].
    assert (X : bounded (mapM (fun k => do x <- get row k; elem_bytes I c x) (seq 0 (m2 I)))).
    { apply mapM_bounded. intros k. destruct (get_bounded row k) as [[x ->]| ->]; [|right; reflexivity]. cbn [bind]. unfold elem_bytes, read. destruct (_ <=? _); [left; eexists; reflexivity|right; reflexivity]. }
    destruct X as [[y ->]| ->]; [left; eexists; reflexivity|right; reflexivity].
  - unfold get. rewrite nth_error_map. replace (nth_error (s_proofs sig) (length (s_proofs sig))) with (@None rep_proof) by (symmetry; apply nth_error_None; lia). reflexivity.
Qed.
End Needs.
