(** Which part of its arguments verification and serialization read, for C72 and C73. *)
From Coq Require Import Arith NArith List Bool Lia.
From Verif Require Import Prelude ListSum FieldModel PolyModel Instances HashModel TreeModel AesModel AesShares BanquetModel LooseSpec.
Import ListNotations.

Lemma get_firstn {A} (l : list A) n i : i < n -> get (firstn n l) i = get l i.
Proof.
  intros Hi. unfold get. assert (E : nth_error (firstn n l) i = nth_error l i); [|rewrite E; reflexivity].
  revert n i Hi; induction l as [|a l IH]; intros n i Hi; [rewrite firstn_nil; reflexivity|]. destruct n; [lia|]. destruct i; [reflexivity|]. cbn [firstn nth_error]. apply IH. lia.
Qed.
Lemma get_prefix {A} (l l' : list A) n i : firstn n l = firstn n l' -> i < n -> get l i = get l' i.
Proof. intros E Hi. rewrite <- (get_firstn l n i Hi), <- (get_firstn l' n i Hi), E. reflexivity. Qed.
Lemma bind_ext {A B} (x : res A) (f g : A -> res B) : (forall a, f a = g a) -> bind x f = bind x g.
Proof. intros E. destruct x; cbn [bind]; auto. Qed.
Lemma bind_ext2 {A B} (x y : res A) (f g : A -> res B) : x = y -> (forall a, f a = g a) -> bind x f = bind y g.
Proof. intros -> E. apply bind_ext. exact E. Qed.
Lemma foldM_ext_seq {B} (f g : B -> nat -> res B) l : (forall b a, In a l -> f b a = g b a) -> forall b, foldM f l b = foldM g l b.
Proof.
  induction l as [|a l IH]; intros E b; [reflexivity|]. cbn [foldM]. rewrite (E b a) by (left; reflexivity). destruct (g b a); cbn [bind]; try reflexivity. apply IH. intros b' a' J. apply E. right. exact J.
Qed.

Section Same.
Variables (H : oracle) (I : instance) (s s' : signature).
Hypothesis SR : same_read I s s'.
Lemma get_part {A} e (f g : rep_proof -> res A) : e < num_rounds I -> (forall p q, same_part I p q -> f p = g q) ->
  (do p <- get (s_proofs s) e; f p) = (do p <- get (s_proofs s') e; g p).
Proof.
  intros He E. destruct SR as (_ & _ & _ & X). specialize (X e He). unfold get. destruct (nth_error (s_proofs s) e), (nth_error (s_proofs s') e); cbn [bind]; try contradiction; [apply E; exact X|reflexivity].
Qed.
Lemma get_field {A B} e (sel : rep_proof -> A) (f g : A -> res B) : e < num_rounds I -> (forall p q, same_part I p q -> f (sel p) = g (sel q)) ->
  (do x <- get (map sel (s_proofs s)) e; f x) = (do x <- get (map sel (s_proofs s')) e; g x).
Proof.
  intros He E. destruct SR as (_ & _ & _ & X). specialize (X e He). unfold get. rewrite !nth_error_map. destruct (nth_error (s_proofs s) e), (nth_error (s_proofs s') e); cbn [bind option_map]; try contradiction; [apply E; exact X|reflexivity].
Qed.
Ltac inseq := match goal with J : In _ (seq 0 _) |- _ => apply in_seq in J end.

Section Field.
Variable c : fctx.
Lemma same_accumulate p q : same_part I p q -> accumulate I c (p_S_at_R p) (p_T_at_R p) = accumulate I c (p_S_at_R q) (p_T_at_R q).
Proof.
  intros (_ & _ & _ & _ & _ & _ & ES & ET). unfold accumulate. apply foldM_ext_seq. intros b j J. inseq. rewrite (get_prefix _ _ _ j ES), (get_prefix _ _ _ j ET) by lia. reflexivity.
Qed.
Lemma same_relations l : (forall e, In e l -> e < num_rounds I) -> verify_relations I c (s_proofs s) l = verify_relations I c (s_proofs s') l.
Proof.
  induction l as [|e l IH]; intros Hl; [reflexivity|]. cbn [verify_relations]. apply get_part; [apply Hl; left; reflexivity|]. intros p q PQ. unfold verify_relation. rewrite (same_accumulate p q PQ).
  destruct PQ as (_ & _ & _ & _ & -> & _). apply bind_ext. intros b. destruct b; [|reflexivity]. apply IH. intros e' J. apply Hl. right. exact J.
Qed.
Lemma same_setup salt p q rep m : same_part I p q -> verify_setup H I salt p rep m = verify_setup H I salt q rep m.
Proof. intros (Er & Ec & _). unfold verify_setup. rewrite Er, Ec. reflexivity. Qed.
Lemma same_phase1 pt ct p q m tp : same_part I p q -> verify_phase1 I pt ct p m tp = verify_phase1 I pt ct q m tp.
Proof. intros (_ & _ & Ek & Et & _). unfold verify_phase1. rewrite Ek, Et. reflexivity. Qed.
Lemma same_phase3 rs p q m a b tp : same_part I p q -> verify_phase3 I c rs p m a b tp = verify_phase3 I c rs q m a b tp.
Proof.
  intros (_ & _ & _ & _ & _ & Ed & _). unfold verify_phase3. apply bind_ext. intros pts. apply bind_ext. intros sh. f_equal. destruct (0 =? m); [reflexivity|]. unfold adjust_first. apply bind_ext. intros f. f_equal.
  apply foldM_ext_seq. intros x j J. inseq. rewrite (get_prefix _ _ _ j Ed) by lia. reflexivity.
Qed.
Lemma same_phase5 pre1 pre2 R p q m ph : same_part I p q -> verify_phase5 I c pre1 pre2 R p m ph = verify_phase5 I c pre1 pre2 R q m ph.
Proof.
  intros (_ & _ & _ & _ & EP & _ & ES & ET). unfold verify_phase5. rewrite EP. apply bind_ext. intros l1. apply bind_ext. intros l2. apply bind_ext. intros kn.
  assert (X : mapM (get (p_S_at_R p)) (seq 0 (m1 I)) = mapM (get (p_S_at_R q)) (seq 0 (m1 I))) by (apply mapM_ext; intros j J; inseq; apply (get_prefix _ _ _ j ES); lia).
  assert (Y : mapM (get (p_T_at_R p)) (seq 0 (m1 I)) = mapM (get (p_T_at_R q)) (seq 0 (m1 I))) by (apply mapM_ext; intros j J; inseq; apply (get_prefix _ _ _ j ET); lia).
  rewrite X, Y. apply bind_ext. intros a. apply bind_ext. intros b.
  apply bind_ext2; [apply mapM_ext; intros j J; inseq; rewrite (get_prefix _ _ _ j ES) by lia; reflexivity|]. intros am.
  apply bind_ext2; [apply mapM_ext; intros j J; inseq; rewrite (get_prefix _ _ _ j ET) by lia; reflexivity|]. reflexivity.
Qed.
Lemma same_phase_1_ctx salt pk msg coms bc :
  phase_1_ctx I salt pk msg coms (map p_sk_delta (s_proofs s)) (map p_t_delta (s_proofs s)) bc =
  phase_1_ctx I salt pk msg coms (map p_sk_delta (s_proofs s')) (map p_t_delta (s_proofs s')) bc.
Proof.
  unfold phase_1_ctx. apply bind_ext2; [|reflexivity]. apply mapM_ext. intros e J. inseq. apply bind_ext. intros crow. apply bind_ext. intros brow. apply bind_ext. intros ps.
  apply get_field; [lia|]. intros p q (_ & _ & -> & _). apply get_field; [lia|]. intros p' q' (_ & _ & _ & -> & _). reflexivity.
Qed.
Lemma same_phase_2 salt h1 : phase_2_commitment H I c salt h1 (map p_P_delta (s_proofs s)) = phase_2_commitment H I c salt h1 (map p_P_delta (s_proofs s')).
Proof.
  unfold phase_2_commitment, phase_2_ctx. apply bind_ext2; [|reflexivity]. apply bind_ext2; [|reflexivity]. apply mapM_ext. intros e J. inseq. apply get_field; [lia|]. intros p q (_ & _ & _ & _ & _ & Ed & _).
  apply bind_ext2; [|reflexivity]. apply mapM_ext. intros k K. inseq. rewrite (get_prefix _ _ _ k Ed) by lia. reflexivity.
Qed.
Lemma same_contexts fuel garb pk msg : verify_contexts H I c fuel garb pk s msg = verify_contexts H I c fuel garb pk s' msg.
Proof.
  destruct SR as (Es & E1 & E3 & _). unfold verify_contexts. rewrite Es, E1, E3, same_phase_2. apply bind_ext. intros pt. apply bind_ext. intros ct. apply bind_ext. intros h2. apply bind_ext. intros rss. apply bind_ext. intros Rs.
  apply bind_ext. intros ms. apply bind_ext2.
  { apply mapM_ext. intros e J. inseq. apply get_part; [lia|]. intros p q PQ. apply bind_ext. intros m. apply same_setup. exact PQ. }
  intros st. apply bind_ext2.
  { apply mapM_ext. intros e J. inseq. apply get_part; [lia|]. intros p q PQ. apply bind_ext. intros m. apply bind_ext. intros tp. apply same_phase1. exact PQ. }
  intros ph1. apply bind_ext. intros pre1. apply bind_ext. intros pre2. apply bind_ext2.
  { apply mapM_ext. intros e J. inseq. apply get_part; [lia|]. intros p q PQ. do 4 (apply bind_ext; intros ?). apply same_phase3. exact PQ. }
  intros ph3. apply bind_ext2.
  { apply mapM_ext. intros e J. inseq. apply get_part; [lia|]. intros p q PQ. do 3 (apply bind_ext; intros ?). apply same_phase5. exact PQ. }
  intros ph5. rewrite same_phase_1_ctx. reflexivity.
Qed.
Lemma same_body fuel garb pk msg : verify_body H I c fuel garb pk s msg = verify_body H I c fuel garb pk s' msg.
Proof.
  unfold verify_body. rewrite same_contexts. apply bind_ext. intros [ctx1 ctx3]. destruct SR as (_ & E1 & E3 & _). rewrite E1, E3. apply bind_ext. intros b. destruct (negb b); [reflexivity|].
  apply bind_ext. intros b'. destruct (negb b'); [reflexivity|]. apply same_relations. intros e J. inseq. lia.
Qed.
End Field.
Lemma same_verify fuel garb st pk msg : verify H fuel garb st I pk s msg = verify H fuel garb st I pk s' msg.
Proof.
  unfold verify, with_field. destruct (st_init st (lambda I)) as [st' r]. destruct r as [[]| | |]; try reflexivity. destruct st' as [c|]; [|reflexivity]. rewrite same_body. reflexivity.
Qed.
Lemma same_serialize st : serialize st I s = serialize st I s'.
Proof.
  unfold serialize. apply bind_ext2.
  { apply mapM_ext. intros e J. inseq. apply get_part; [lia|]. intros p q (Er & Ec & Ek & Et & EP & Ed & ES & ET). unfold serialize_proof. rewrite Er, Ec, Ek, Et, EP.
    apply bind_ext2; [apply mapM_ext; intros j K; inseq; rewrite (get_prefix _ _ _ j Ed) by lia; reflexivity|]. intros ds.
    apply bind_ext2; [apply mapM_ext; intros j K; inseq; rewrite (get_prefix _ _ _ j ES) by lia; reflexivity|]. intros ss.
    apply bind_ext2; [apply mapM_ext; intros j K; inseq; rewrite (get_prefix _ _ _ j ET) by lia; reflexivity|]. reflexivity. }
  intros ps. destruct SR as (-> & -> & -> & _). reflexivity.
Qed.
End Same.

(** *** what a result of verification needs *)
Lemma mapM_seq_each {B} (f : nat -> res B) n l : mapM f (seq 0 n) = Ok l -> forall i, i < n -> exists x, f i = Ok x.
Proof.
  intros E i Hi. apply mapM_ok_inv in E. assert (J : In i (seq 0 n)) by (apply in_seq; lia). clear Hi. induction E as [|a b l1 l2 Hab E IH]; [destruct J|]. destruct J as [->|J]; [exists b; exact Hab|auto].
Qed.
Lemma mapM_gets {A} (l : list A) n r : mapM (get l) (seq 0 n) = Ok r -> n <= length l.
Proof. intros E. destruct n as [|n]; [lia|]. destruct (mapM_seq_each _ _ _ E n) as [x X]; [lia|]. apply get_inv in X. lia. Qed.
Lemma foldM_each {B} (f : B -> nat -> res B) l b r : foldM f l b = Ok r -> forall i, In i l -> exists x y, f x i = Ok y.
Proof.
  revert b. induction l as [|a l IH]; intros b E i J; [destruct J|]. cbn [foldM] in E. apply bind_ok in E as (b' & E1 & E2). destruct J as [<-|J]; [exists b, b'; exact E1|]. exact (IH b' E2 i J).
Qed.
Lemma by4_forall {A} (P : A -> Prop) n (f4 : nat -> res (list A)) (f1 : nat -> res A) l : by4 n f4 f1 = Ok l ->
  (forall p xs, f4 p = Ok xs -> Forall P xs) -> (forall p x, f1 p = Ok x -> P x) -> Forall P l.
Proof.
  intros E H4 H1. unfold by4 in E. apply bind_ok in E as (xs & Ex & E). apply bind_ok in E as (ys & Ey & E). injection E as <-. apply Forall_app. split.
  - apply mapM_ok_inv in Ex. induction Ex as [|a b l1 l2 Hab Ex IH]; [constructor|]. cbn [concat]. apply Forall_app. split; [exact (H4 _ _ Hab)|exact IH].
  - apply mapM_ok_inv in Ey. induction Ey as [|a b l1 l2 Hab Ey IH]; [constructor|]. constructor; [exact (H1 _ _ Hab)|exact IH].
Qed.
Lemma fix_needs I tapes off len delta sh r : tape_shares I tapes off len = Ok sh -> fix_first delta sh = Ok r -> length delta <= len.
Proof.
  intros E1 E2. unfold fix_first in E2. apply bind_ok in E2 as (f & Ef & E2). apply bind_ok in E2 as (f' & E2 & _). apply get_inv in Ef as [Ef _]. apply nth_error_In in Ef.
  assert (X : Forall (fun x : bytes => length x = len) sh).
  { apply mapM_ok_inv in E1. clear Ef. induction E1 as [|a b l1 l2 Hab E1 IH]; [constructor|]. constructor; [|exact IH]. apply bind_ok in Hab as (tp & _ & Hab). unfold read in Hab.
    destruct (Nat.leb_spec (off + len) (length tp)); [|discriminate Hab]. injection Hab as <-. unfold slice. rewrite firstn_length, skipn_length. lia. }
  rewrite Forall_forall in X. specialize (X _ Ef). unfold xor_into in E2. destruct (Nat.leb_spec (length delta) (length f)); [lia|discriminate E2].
Qed.
Lemma memcmp_need a b n r : length a = n -> memcmp_eq a b (length a) = Ok r -> n <= length b.
Proof.
  intros L E. unfold memcmp_eq in E. apply bind_ok in E as (x & _ & E). apply bind_ok in E as (y & E & _). unfold read in E. destruct (Nat.leb_spec (0 + length a) (length b)); [lia|discriminate E].
Qed.
Section Needs.
Variables (H : oracle) (I : instance).
Ltac inv E := let x := fresh "x" in let X := fresh "X" in apply bind_ok in E as (x & X & E).
Lemma contexts_need c fuel garb pk sig msg r : verify_contexts H I c fuel garb pk sig msg = Ok r ->
  num_rounds I <= length (s_proofs sig) /\ (1 <= num_rounds I -> In (key_size (i_aes I)) [16; 24; 32]) /\
  (forall e p, e < num_rounds I -> nth_error (s_proofs sig) e = Some p -> long_enough I p /\ not_too_long I p).
Proof.
  intros E. unfold verify_contexts in E. apply bind_ok in E as (pt & Ept & E). apply bind_ok in E as (ct & Ect & E). apply bind_ok in E as (h2 & E2 & E). inv E. inv E. inv E.
  apply bind_ok in E as (st & Est & E). apply bind_ok in E as (ph1 & Eph1 & E). inv E. inv E. apply bind_ok in E as (ph3 & Eph3 & E). apply bind_ok in E as (ph5 & Eph5 & E).
  unfold phase_2_commitment, phase_2_ctx in E2. apply bind_ok in E2 as (ctx2 & E2 & _). apply bind_ok in E2 as (parts & E2 & _).
  split; [|split].
  - destruct (num_rounds I) as [|T]; [lia|]. destruct (mapM_seq_each _ _ _ E2 T) as [y Y]; [lia|]. apply bind_ok in Y as (row & Y & _). apply get_inv in Y. rewrite map_length in Y. lia.
  - intros HT. destruct (mapM_seq_each _ _ _ Eph1 0 HT) as [y Y]. apply bind_ok in Y as (p & _ & Y). apply bind_ok in Y as (m & _ & Y). apply bind_ok in Y as (tp & _ & Y). unfold verify_phase1 in Y.
    do 4 (let z := fresh "z" in apply bind_ok in Y as (z & _ & Y)). apply bind_ok in Y as (o & Y & _). unfold aes_s_shares in Y. apply bind_ok in Y as (f & Y & _). unfold by_key_size in Y.
    destruct (Nat.eqb_spec (key_size (i_aes I)) 16) as [->|_]; [left; reflexivity|]. destruct (Nat.eqb_spec (key_size (i_aes I)) 24) as [->|_]; [right; left; reflexivity|].
    destruct (Nat.eqb_spec (key_size (i_aes I)) 32) as [->|_]; [right; right; left; reflexivity|]. discriminate Y.
  - intros e p He Ep. assert (G : get (s_proofs sig) e = Ok p) by (unfold get; rewrite Ep; reflexivity).
    destruct (mapM_seq_each _ _ _ E2 e He) as [y2 Y2]. apply bind_ok in Y2 as (row & Erow & Y2). unfold get in Erow. rewrite nth_error_map, Ep in Erow. injection Erow as <-. apply bind_ok in Y2 as (bs & Y2 & _).
    destruct (mapM_seq_each _ _ _ Est e He) as [ys Ys]. rewrite G in Ys. cbn [bind] in Ys. apply bind_ok in Ys as (m & Em & Ys).
    destruct (mapM_seq_each _ _ _ Eph1 e He) as [y1 Y1]. rewrite G, Em in Y1. cbn [bind] in Y1. apply bind_ok in Y1 as (tp & _ & Y1).
    destruct (mapM_seq_each _ _ _ Eph3 e He) as [y3 Y3]. rewrite G, Em in Y3. cbn [bind] in Y3. do 3 (let z := fresh "z" in apply bind_ok in Y3 as (z & _ & Y3)).
    destruct (mapM_seq_each _ _ _ Eph5 e He) as [y5 Y5]. rewrite G, Em in Y5. cbn [bind] in Y5. do 2 (let z := fresh "z" in apply bind_ok in Y5 as (z & _ & Y5)).
    assert (D2 : m2 I <= length (p_P_delta p)).
    { destruct (m2 I) as [|k]; [lia|]. destruct (mapM_seq_each _ _ _ Y2 k) as [x' X']; [lia|]. apply bind_ok in X' as (v & X' & _). apply get_inv in X'. lia. }
    assert (DM : m = snd (p_reveal p)). { unfold verify_setup in Ys. destruct (Nat.eqb_spec m (snd (p_reveal p))) as [Q|Q]; [exact Q|discriminate Ys]. }
    assert (D3 : m <> 0 -> m2 I + 1 <= length (p_P_delta p)).
    { intros Hm. unfold verify_phase3 in Y3. do 2 (let z := fresh "z" in apply bind_ok in Y3 as (z & _ & Y3)). apply bind_ok in Y3 as (sh & Y3 & _). destruct (Nat.eqb_spec 0 m) as [Q|_]; [congruence|].
      unfold adjust_first in Y3. apply bind_ok in Y3 as (f & _ & Y3). apply bind_ok in Y3 as (f' & Y3 & _). destruct (foldM_each _ _ _ _ Y3 (m2 I)) as (u & v & U); [apply in_seq; lia|].
      apply bind_ok in U as (d & U & _). apply get_inv in U. lia. }
    unfold long_enough, not_too_long. rewrite <- DM. apply and_assoc. split; [destruct (Nat.eqb_spec m 0) as [_|Q]; [lia|apply D3; exact Q]|].
    unfold verify_phase5 in Y5. do 3 (let z := fresh "z" in apply bind_ok in Y5 as (z & _ & Y5)). apply bind_ok in Y5 as (a & Ea & Y5). apply bind_ok in Y5 as (b & Eb & Y5).
    apply and_assoc. split; [exact (mapM_gets _ _ _ Ea)|]. split; [exact (mapM_gets _ _ _ Eb)|].
    assert (KL : length (p_sk_delta p) <= key_size (i_aes I) /\ length (p_t_delta p) <= num_sboxes (i_aes I)).
    { unfold verify_phase1 in Y1. apply bind_ok in Y1 as (k1 & K1 & Y1). apply bind_ok in Y1 as (k2 & K2 & Y1). apply bind_ok in Y1 as (k3 & K3 & Y1). apply bind_ok in Y1 as (k4 & K4 & _).
      split; [exact (fix_needs _ _ _ _ _ _ _ K1 K2)|exact (fix_needs _ _ _ _ _ _ _ K3 K4)]. }
    split; [|exact KL]. unfold verify_setup in Ys. destruct (negb (m =? snd (p_reveal p))); [discriminate Ys|]. apply bind_ok in Ys as (t & _ & Ys). cbv zeta in Ys.
    apply bind_ok in Ys as (coms & Ec & Ys). apply bind_ok in Ys as (com & Eg & Ys). apply bind_ok in Ys as (com' & Eco & _).
    assert (FA : Forall (fun x : bytes => length x = digest_size I) coms).
    { apply (by4_forall _ _ _ _ _ Ec).
      - intros q xs Q. do 4 (apply bind_ok in Q as (? & _ & Q)). unfold commit_to_4_party_seeds in Q. apply bind_ok in Q as (sd & _ & Q). injection Q as <-. unfold hash_squeeze_x4. cbn [fst].
        apply Forall_map, Forall_forall. intros u _. destruct (hash_squeeze H u (digest_size I)) as [b' u'] eqn:Eq. exact (proj1 (squeeze_shape _ _ _ _ _ Eq)).
      - intros q xs Q. destruct (q =? m); [injection Q as <-; apply repeat_length|]. apply bind_ok in Q as (? & _ & Q). apply bind_ok in Q as (? & _ & Q). injection Q as <-. unfold commit_to_party_seed.
        match goal with |- length (fst ?h) = _ => destruct h as [b' u'] eqn:Eq end. exact (proj1 (squeeze_shape _ _ _ _ _ Eq)). }
    apply get_inv in Eg as [Eg _]. apply nth_error_In in Eg. rewrite Forall_forall in FA. specialize (FA _ Eg). unfold copy_into in Eco. destruct (Nat.leb_spec (length (p_C p)) (length com)); [lia|discriminate Eco].
Qed.
Lemma body_need c fuel garb pk sig msg b : verify_body H I c fuel garb pk sig msg = Ok b ->
  num_rounds I <= length (s_proofs sig) /\ (1 <= num_rounds I -> In (key_size (i_aes I)) [16; 24; 32]) /\
  (forall e p, e < num_rounds I -> nth_error (s_proofs sig) e = Some p -> long_enough I p /\ not_too_long I p) /\
  2 * pt_size I <= length pk /\ digest_size I <= length (s_h1 sig) /\ (b = true -> digest_size I <= length (s_h3 sig)).
Proof.
  intros E. unfold verify_body in E. apply bind_ok in E as ([c1 c3] & EC & E). destruct (contexts_need _ _ _ _ _ _ _ EC) as (A & B & C). split; [exact A|]. split; [exact B|]. split; [exact C|].
  split. { unfold verify_contexts in EC. apply bind_ok in EC as (pt & _ & EC). apply bind_ok in EC as (ct & EC & _). unfold read in EC. destruct (Nat.leb_spec (pt_size I + pt_size I) (length pk)); [lia|discriminate EC]. }
  cbv zeta in E. apply bind_ok in E as (e1 & E1 & E). destruct (hash_squeeze H (hash_final c1) (digest_size I)) as [d1 u1] eqn:Q1. cbn [fst] in E1. apply squeeze_shape in Q1 as [L1 _].
  split; [exact (memcmp_need _ _ _ _ L1 E1)|]. intros ->. destruct e1; [cbn [negb] in E|discriminate E]. apply bind_ok in E as (e3 & E3 & E).
  destruct (hash_squeeze H (hash_final c3) (digest_size I)) as [d3 u3] eqn:Q3. cbn [fst] in E3. apply squeeze_shape in Q3 as [L3 _]. exact (memcmp_need _ _ _ _ L3 E3).
Qed.
Lemma verify_need fuel garb st pk sig msg b : snd (verify H fuel garb st I pk sig msg) = Ok b ->
  num_rounds I <= length (s_proofs sig) /\ (1 <= num_rounds I -> In (key_size (i_aes I)) [16; 24; 32]) /\
  (forall e p, e < num_rounds I -> nth_error (s_proofs sig) e = Some p -> long_enough I p /\ not_too_long I p) /\
  2 * pt_size I <= length pk /\ digest_size I <= length (s_h1 sig) /\ (b = true -> digest_size I <= length (s_h3 sig)).
Proof.
  unfold verify, with_field. destruct (st_init st (lambda I)) as [[c|] [[]| | |]]; try discriminate. apply body_need.
Qed.

(** too few proofs *)
Definition bounded {A} (r : res A) : Prop := (exists x, r = Ok x) \/ r = UB OutOfBounds.
Lemma mapM_bounded {A B} (f : A -> res B) l : (forall a, bounded (f a)) -> bounded (mapM f l).
Proof.
  intros Hf. induction l as [|a l IH]; [left; eexists; reflexivity|]. cbn [mapM]. destruct (Hf a) as [[x ->]| ->]; [|right; reflexivity]. cbn [bind].
  destruct IH as [[y ->]| ->]; [left; eexists; reflexivity|right; reflexivity].
Qed.
Lemma mapM_fails {A B} (f : A -> res B) l a : (forall a, bounded (f a)) -> In a l -> f a = UB OutOfBounds -> mapM f l = UB OutOfBounds.
Proof.
  intros Hf J E. destruct (mapM_bounded f l Hf) as [[x X]|X]; [|exact X]. exfalso. apply mapM_ok_inv in X. induction X as [|u v l1 l2 Huv X IH]; [destruct J|]. destruct J as [->|J]; [congruence|auto].
Qed.
Lemma get_bounded {A} (l : list A) i : bounded (get l i).
Proof. unfold get. destruct (nth_error l i); [left; eexists; reflexivity|right; reflexivity]. Qed.
Lemma few_proofs c fuel garb st pk sig msg : init_extension_field (lambda I) = Ok c -> 2 * pt_size I <= length pk -> length (s_proofs sig) < num_rounds I ->
  snd (verify H fuel garb st I pk sig msg) = UB OutOfBounds.
Proof.
  intros Hc Lp Hn. unfold verify, with_field, st_init. rewrite Hc. cbn [snd]. unfold verify_body, verify_contexts, read.
  replace (0 + pt_size I <=? length pk) with true by (symmetry; apply Nat.leb_le; lia). replace (pt_size I + pt_size I <=? length pk) with true by (symmetry; apply Nat.leb_le; lia). cbn [bind].
  unfold phase_2_commitment, phase_2_ctx. rewrite (mapM_fails _ _ (length (s_proofs sig))); [reflexivity| |apply in_seq; lia|].
  - intros e. destruct (get_bounded (map p_P_delta (s_proofs sig)) e) as [[row ->]| ->]; [|right; reflexivity]. cbn [bind].
    assert (X : bounded (mapM (fun k => do x <- get row k; elem_bytes I c x) (seq 0 (m2 I)))).
    { apply mapM_bounded. intros k. destruct (get_bounded row k) as [[x ->]| ->]; [|right; reflexivity]. cbn [bind]. unfold elem_bytes, read. destruct (_ <=? _); [left; eexists; reflexivity|right; reflexivity]. }
    destruct X as [[y ->]| ->]; [left; eexists; reflexivity|right; reflexivity].
  - unfold get. rewrite nth_error_map. replace (nth_error (s_proofs sig) (length (s_proofs sig))) with (@None rep_proof) by (symmetry; apply nth_error_None; lia). reflexivity.
Qed.
End Needs.

(** *** parameters that are refused *)
Section Refused.
Variables (H : oracle) (I : instance).
Lemma lambda_unknown : ~ In (lambda I) [2; 4; 5; 6] -> init_extension_field (lambda I) = Throw ELambda.
Proof. intros N. destruct (lambda I) as [|[|[|[|[|[|[|x]]]]]]]; cbn in *; try reflexivity; exfalso; tauto. Qed.
Lemma refused_lambda fuel garb st : ~ In (lambda I) [2; 4; 5; 6] ->
  (forall kp msg, sign H fuel garb st I kp msg = (st, Throw ELambda)) /\ (forall pk sig msg, verify H fuel garb st I pk sig msg = (st, Throw ELambda)).
Proof. intros N. unfold sign, verify, with_field, st_init. rewrite (lambda_unknown N). destruct st; split; reflexivity. Qed.
Lemma key_unknown {A} ks (f1 f2 f3 : A) : ~ In ks [16; 24; 32] -> by_key_size ks f1 f2 f3 = Throw EInvalidParams.
Proof.
  intros N. unfold by_key_size. destruct (Nat.eqb_spec ks 16) as [->|_]; [exfalso; apply N; cbn; tauto|]. destruct (Nat.eqb_spec ks 24) as [->|_]; [exfalso; apply N; cbn; tauto|].
  destruct (Nat.eqb_spec ks 32) as [->|_]; [exfalso; apply N; cbn; tauto|]. reflexivity.
Qed.
Lemma refused_keygen (r : rng) fuel : ~ In (key_size (i_aes I)) [16; 24; 32] -> length (snd (r 0)) <= key_size (i_aes I) -> length (snd (r 1)) <= pt_size I -> 1 <= fuel -> keygen fuel I r = Throw EInvalidParams.
Proof.
  intros N L0 L1 Hf. destruct fuel as [|fuel]; [lia|]. unfold keygen. cbn [keygen_loop].
  assert (X : forall i n, length (snd (r i)) <= n -> exists y, rand_bytes r i (zeros n) = Ok y).
  { intros i n L. unfold rand_bytes, copy_into. replace (length (zeros n)) with n by (symmetry; apply repeat_length). destruct (Nat.leb_spec (length (snd (r i))) n) as [_|Q]; [eexists; reflexivity|]. exfalso. apply (Nat.lt_irrefl n). exact (Nat.lt_le_trans _ _ _ Q L). }
  destruct (X 0 _ L0) as [y ->]. cbn [bind Nat.add]. destruct (X 1 _ L1) as [z ->]. cbn [bind]. unfold aes_plain. rewrite (key_unknown _ _ _ _ N). reflexivity.
Qed.
Lemma refused_sign c fuel garb st (kp : keypair) msg : ~ In (key_size (i_aes I)) [16; 24; 32] -> init_extension_field (lambda I) = Ok c -> 2 * pt_size I <= length (snd kp) ->
  sign H fuel garb st I kp msg = (Some c, Throw EInvalidParams).
Proof.
  intros N Hc Lp. unfold sign, with_field, st_init. rewrite Hc. f_equal. unfold sign_body, read.
  replace (0 + pt_size I <=? length (snd kp)) with true by (symmetry; apply Nat.leb_le; lia). replace (pt_size I + pt_size I <=? length (snd kp)) with true by (symmetry; apply Nat.leb_le; lia). cbn [bind].
  unfold aes_with_sbox_output. rewrite (key_unknown _ _ _ _ N). reflexivity.
Qed.
End Refused.
