(** The shares of the key and of the S-box outputs, the recomputed AES executions and their outputs in flat containers *)
From Coq Require Import Arith NArith List Bool Lia.
From Verif Require Import Prelude HashModel TreeModel Instances ContainerModel MemModel BanquetModel MemBase MemAes MemRows MemSetup FreeSpec.
Import ListNotations.

Lemma map_nth_seq {A} (l : list A) d s : map (fun p => nth (p - s) l d) (seq s (length l)) = l.
Proof.
  revert s. induction l as [|a l IH]; intros s; [reflexivity|]. cbn [length seq map]. rewrite Nat.sub_diag. cbn [nth]. f_equal.
  etransitivity; [|exact (IH (S s))]. apply map_ext_in. intros p Hp. apply in_seq in Hp. destruct (p - s) eqn:E; [lia|]. cbn [nth]. f_equal. lia.
Qed.
Lemma rowfill_row {A} (f : nat -> nat -> list A) rep row n : length row = n -> map (rowfill f rep row rep) (seq 0 n) = row.
Proof.
  intros <-. etransitivity; [|exact (map_nth_seq row [] 0)]. apply map_ext_in. intros p Hp. apply in_seq in Hp. unfold rowfill.
  rewrite Nat.eqb_refl, (proj2 (Nat.ltb_lt _ _)) by lia. cbn [andb]. f_equal. lia.
Qed.
Lemma rowfill_at {A} (f : nat -> nat -> list A) rep row p : p < length row -> rowfill f rep row rep p = nth p row [].
Proof. intros Hp. unfold rowfill. rewrite Nat.eqb_refl, (proj2 (Nat.ltb_lt _ _) Hp). reflexivity. Qed.
Lemma foldM_ext_in {A S} (f g : S -> A -> res S) l : (forall a s, In a l -> f s a = g s a) -> forall s, foldM f l s = foldM g l s.
Proof.
  induction l as [|a l IH]; intros HF s; cbn [foldM]; [reflexivity|]. rewrite (HF a s) by (left; reflexivity).
  destruct (g s a); cbn [bind]; auto. apply IH. intros; apply HF. right. assumption.
Qed.
Lemma mapM_get {A} (l : list A) n : length l = n -> mapM (get l) (seq 0 n) = Ok l.
Proof.
  intros <-. assert (G : forall k s l0, skipn s l = l0 -> length l0 = k -> mapM (get l) (seq s k) = Ok l0).
  { induction k as [|k IH]; intros s l0 E L; destruct l0 as [|a l0]; cbn [length] in L; try lia; [reflexivity|]. cbn [seq mapM].
    assert (N : nth_error l s = Some a) by (rewrite <- (firstn_skipn s l), E; assert (s <= length l) by (destruct (Nat.le_gt_cases s (length l)); [assumption|rewrite skipn_all2 in E by lia; discriminate]);
      rewrite nth_error_app2; rewrite firstn_length_le by lia; [rewrite Nat.sub_diag; reflexivity|lia]).
    unfold get at 1. rewrite N. cbn [bind]. rewrite (IH (S s) l0); [reflexivity| |lia].
    change (S s) with (1 + s). clear - E. revert l E. induction s; intros l E; cbn in *; [destruct l; [discriminate|]; injection E as _ ->; reflexivity|].
    destruct l; [discriminate|]. apply IHs. exact E. }
  apply (G _ 0); reflexivity.
Qed.

(** computations that end well or are undefined *)
Definition okub {A} (x : res A) : Prop := match x with Ok _ | UB _ => True | _ => False end.
Lemma okub_bind {A B} (x : res A) (f : A -> res B) : okub x -> (forall a, okub (f a)) -> okub (bind x f).
Proof. destruct x; cbn; auto. Qed.
Lemma okub_get {A} (l : list A) i : okub (get l i). Proof. unfold get. destruct (nth_error l i); exact Logic.I. Qed.
Lemma okub_read {A} (l : list A) o k : okub (read l o k). Proof. unfold read. destruct (_ <=? _); exact Logic.I. Qed.
Lemma okub_set {A} (l : list A) i x : okub (set l i x). Proof. unfold set. destruct (_ <? _); exact Logic.I. Qed.
Lemma okub_xor a b : okub (xor_into a b). Proof. unfold xor_into. destruct (_ <=? _); exact Logic.I. Qed.
Lemma okub_mapM {A B} (f : A -> res B) l : (forall a, okub (f a)) -> okub (mapM f l).
Proof. intros HF. induction l; cbn [mapM]; [exact Logic.I|]. apply okub_bind; [apply HF|]. intros b. apply okub_bind; [exact IHl|]. intros; exact Logic.I. Qed.
Lemma okub_foldM {A S} (f : S -> A -> res S) l : (forall s a, okub (f s a)) -> forall s, okub (foldM f l s).
Proof. intros HF. induction l; intros s; cbn [foldM]; [exact Logic.I|]. apply okub_bind; auto. Qed.
Lemma sim_okub {A B} (R : A -> B -> Prop) x y : okub x -> (forall a, x = Ok a -> exists b, y = Ok b /\ R a b) -> sim R x y.
Proof. destruct x; cbn; auto; contradiction. Qed.

Section Phase1.
Variable I : instance.
Hypothesis HI : proper I.
Local Notation n := (num_parties I).
Local Notation T := (num_rounds I).
Local Notation ks := (key_size (i_aes I)).
Local Notation sb := (num_sboxes (i_aes I)).
Variable rep : nat.
Hypothesis Hr : rep < T.

Lemma parties_pos : 0 < n. Proof. pose proof (pr_parties I HI). lia. Qed.

Lemma write_row {A} (g : container A -> nat -> res (container A)) vs sz f0 d :
  (forall d p, p < n -> g d p = m_copy d rep p (nth p vs [])) ->
  length vs = n -> Forall (fun v => length v = sz) vs -> holds d T n sz f0 ->
  exists d', foldM g (seq 0 n) d = Ok d' /\ holds d' T n sz (rowfill f0 rep vs).
Proof.
  intros HG L F Hd.
  assert (G : forall k acc d, length acc + k = n -> firstn (length acc) vs = acc -> holds d T n sz (rowfill f0 rep acc) ->
    exists d', foldM g (seq (length acc) k) d = Ok d' /\ holds d' T n sz (rowfill f0 rep vs)).
  { induction k as [|k IH]; intros acc d0 Lk Ef H0; cbn [seq foldM].
    - exists d0. split; [reflexivity|]. rewrite <- Ef, firstn_all2 in H0 by lia. exact H0.
    - rewrite HG by lia.
      assert (Lv : length (nth (length acc) vs []) = sz) by (apply Forall_nth; [exact F|lia]).
      destruct (holds_fill _ _ _ _ _ rep (length acc) _ H0 Hr ltac:(lia) Lv) as (d1 & E1 & H1). rewrite E1. cbn [bind].
      pose proof (IH (acc ++ [nth (length acc) vs []]) d1) as IH1. rewrite app_length in IH1. cbn [length] in IH1.
      replace (length acc + 1) with (S (length acc)) in IH1 by lia. apply IH1; [lia| |].
      + assert (FS : forall (m : nat) (l : list (list A)), m < length l -> firstn (S m) l = firstn m l ++ [nth m l []]).
        { clear. induction m; destruct l; cbn; intros; try lia; [reflexivity|]. f_equal. apply IHm. lia. }
        rewrite FS by lia. congruence.
      + eapply holds_ext; [exact H1|]. intros r p _ _. apply rowfill_snoc. }
  apply (G n [] d); [reflexivity|reflexivity|]. eapply holds_ext; [exact Hd|]. intros r p _ _. rewrite rowfill_nil. reflexivity.
Qed.

Lemma tape_shares_sim tapes (tp : list bytes) off len dst fd :
  length tp = n -> (forall p, p < n -> k_get tapes rep p = Ok (nth p tp [])) -> holds dst T n len fd ->
  sim (fun row d' => length row = n /\ holds d' T n len (rowfill fd rep row)) (tape_shares I tp off len) (m_tape_shares I tapes rep off len dst).
Proof.
  intros L HT Hd. unfold tape_shares, m_tape_shares. apply row_loop; [exact Hr|exact Hd| |].
  - intros p Hp. unfold m_tape. rewrite HT, (get_ok tp p []) by lia. apply sim_refl.
  - intros p v Hp E. apply bind_ok in E as (x & _ & E). exact (read_len _ _ _ _ E).
Qed.
Lemma fix_first_sim delta (row : list bytes) dst fd len : length row = n -> holds dst T n len (rowfill fd rep row) ->
  sim (fun row' d' => length row' = n /\ holds d' T n len (rowfill fd rep row')) (fix_first delta row) (m_xor dst rep 0 delta).
Proof.
  unfold bytes in *. intros L Hd. pose proof parties_pos as Hp. unfold fix_first. unfold bytes in *. rewrite (get_ok row 0 []) by lia. cbn [bind]. unfold xor_into.
  pose proof (rowfill_at fd rep row 0 ltac:(lia)) as E0. pose proof (holds_len _ _ _ _ _ rep 0 Hd Hr Hp) as L0. rewrite E0 in L0.
  destruct (Nat.leb_spec (length delta) (length (nth 0 row []))); cbn [bind]; [|exact Logic.I].
  unfold set. rewrite (proj2 (Nat.ltb_lt _ _)) by lia.
  destruct (holds_xor _ _ _ _ _ rep 0 delta Hd Hr Hp) as (d' & E & H'); [lia|]. rewrite E, E0 in *. apply sim_ok.
  rewrite upd_length. split; [exact L|]. eapply holds_ext; [exact H'|]. intros r p _ _. apply rowfill_upd. lia.
Qed.

Lemma aes_sim pt (keys ts : list bytes) fk ft fs fb h : length keys = n -> length ts = n ->
  holds (h_keys h) T n ks (rowfill fk rep keys) -> holds (h_t h) T n sb (rowfill ft rep ts) ->
  holds (h_s h) T n sb fs -> holds (h_bcast h) T n (pt_size I) fb ->
  sim (fun out h' => length out = n /\ Forall (fun o => length (fst o) = pt_size I /\ length (snd o) = sb) out /\ h_keys h' = h_keys h /\ h_t h' = h_t h /\
        holds (h_s h') T n sb (rowfill fs rep (map snd out)) /\ holds (h_bcast h') T n (pt_size I) (rowfill fb rep (map fst out)))
    (aes_s_shares ks keys ts pt sb) (m_aes I pt rep h).
Proof.
  unfold bytes in *. intros Lk Lt Hk Ht Hs Hb. unfold m_aes. rewrite (holds_rep _ _ _ _ _ rep Hk Hr), (holds_rep _ _ _ _ _ rep Ht Hr).
  rewrite !rowfill_row by assumption. cbn [bind].
  destruct (aes_s_shares ks keys ts pt sb) as [out|e|r|] eqn:E; cbn [bind sim]; auto.
  apply aes_s_shares_len in E as [Lo F]; [|exact HI]. unfold bytes in *. rewrite Lk in Lo.
  assert (F1 : Forall (fun v => length v = pt_size I) (map fst out)) by (apply Forall_map; eapply Forall_impl; [|exact F]; intros o Ho; apply Ho).
  assert (F2 : Forall (fun v => length v = sb) (map snd out)) by (apply Forall_map; eapply Forall_impl; [|exact F]; intros o Ho; apply Ho).
  destruct (write_row (fun d party => do o <- get out party; m_copy d rep party (fst o)) (map fst out) (pt_size I) fb (h_bcast h)) as (b' & Eb & Hb');
    [intros d p Hp; rewrite (get_ok out p ([], [])) by lia; cbn [bind]; f_equal; symmetry; exact (map_nth fst out ([], []) p)|rewrite map_length; exact Lo|exact F1|exact Hb|].
  rewrite Eb. cbn [bind].
  destruct (write_row (fun d party => do o <- get out party; m_copy d rep party (snd o)) (map snd out) sb fs (h_s h)) as (s' & Es & Hs');
    [intros d p Hp; rewrite (get_ok out p ([], [])) by lia; cbn [bind]; f_equal; symmetry; exact (map_nth snd out ([], []) p)|rewrite map_length; exact Lo|exact F2|exact Hs|].
  rewrite Es. cbn [bind]. eexists. split; [reflexivity|]. cbn [h_s h_bcast h_keys h_t]. auto 10.
Qed.

Lemma verify_phase1_sim pt ct proof missing tapes (tp : list bytes) h fk ft fs fb :
  length tp = n -> (forall p, p < n -> k_get tapes rep p = Ok (nth p tp [])) ->
  holds (h_keys h) T n ks fk -> holds (h_t h) T n sb ft -> holds (h_s h) T n sb fs -> holds (h_bcast h) T n (pt_size I) fb ->
  sim (fun x h' => length (fst (fst x)) = n /\ length (snd (fst x)) = n /\ length (snd x) = n /\ (exists fk', holds (h_keys h') T n ks fk') /\
        holds (h_s h') T n sb (rowfill fs rep (fst (fst x))) /\ holds (h_t h') T n sb (rowfill ft rep (snd (fst x))) /\
        holds (h_bcast h') T n (pt_size I) (rowfill fb rep (snd x)))
    (verify_phase1 I pt ct proof missing tp) (m_verify_phase1 I pt ct proof missing tapes rep h).
Proof.
  intros L HT Hk Ht Hs Hb. unfold verify_phase1, m_verify_phase1.
  eapply sim_bind; [apply tape_shares_sim; eassumption|]. intros keys0 kc0 _ [Lk0 Hk0].
  eapply sim_bind; [apply fix_first_sim; eassumption|]. intros keys kc _ [Lk Hk1].
  eapply sim_bind; [apply tape_shares_sim; eassumption|]. intros ts0 tc0 _ [Lt0 Ht0].
  eapply sim_bind; [apply fix_first_sim; eassumption|]. intros ts tc _ [Lt Ht1].
  eapply sim_bind; [apply (aes_sim pt keys ts fk ft fs fb (mkShares kc tc (h_s h) (h_bcast h))); assumption|].
  intros out h' _ (Lo & F & Ek & Et & Hs' & Hb'). unfold bytes in *. cbn [h_keys h_t] in Ek, Et.
  assert (Lb : length (map fst out) = n) by (rewrite map_length; exact Lo).
  apply sim_get. intros old Eold. destruct (get_inv _ _ _ Eold) as [No Hm]. rewrite Lb in Hm.
  pose proof (rowfill_at fb rep (map fst out) missing ltac:(lia)) as E0. rewrite (nth_error_nth _ _ _ No) in E0.
  pose proof (holds_len _ _ _ _ _ rep missing Hb' Hr Hm) as L0. rewrite E0 in L0.
  unfold copy_into. destruct (Nat.leb_spec (length ct) (length old)) as [Lc|]; cbn [bind]; [|exact Logic.I].
  destruct (holds_copy _ _ _ _ _ rep missing ct Hb' Hr Hm) as (b1 & E1 & Hb1); [lia|]. rewrite E1, E0 in *. cbn [bind].
  eapply sim_bind; [apply (sim_foldM (fun acc st => holds st T n (pt_size I) (fupd (rowfill fb rep (map fst out)) rep missing acc)))|].
  - intros party acc st Hp Hst. apply in_seq in Hp. destruct (Nat.eqb_spec party missing) as [Ep|Ep]; [apply sim_ok; exact Hst|].
    rewrite (get_ok (map fst out) party []) by lia. cbn [bind].
    rewrite (holds_get _ _ _ _ _ rep party Hst Hr ltac:(lia)). cbn [bind].
    assert (Ef : fupd (rowfill fb rep (map fst out)) rep missing acc rep party = nth party (map fst out) []).
    { unfold fupd. destruct (Nat.eqb_spec party missing); [contradiction|]. rewrite andb_false_r. apply rowfill_at. lia. }
    rewrite Ef. assert (Ea : fupd (rowfill fb rep (map fst out)) rep missing acc rep missing = acc) by (unfold fupd; rewrite !Nat.eqb_refl; reflexivity).
    pose proof (holds_len _ _ _ _ _ rep missing Hst Hr Hm) as La. rewrite Ea in La.
    unfold xor_into. destruct (Nat.leb_spec (length (nth party (map fst out) [])) (length acc)); [|exact Logic.I].
    destruct (holds_xor _ _ _ _ _ rep missing (nth party (map fst out) []) Hst Hr Hm) as (b2 & E2 & Hb2); [lia|]. rewrite E2, Ea in *.
    apply sim_ok. eapply holds_ext; [exact Hb2|]. intros r p _ _. unfold fupd. destruct ((r =? rep) && (p =? missing)); reflexivity.
  - exact Hb1.
  - intros mb b2 _ Hb2. cbn [bind]. unfold set. rewrite (proj2 (Nat.ltb_lt _ _)) by lia. cbn [bind]. apply sim_ok. cbn [fst snd h_keys h_t h_s h_bcast].
    rewrite upd_length, !map_length. repeat (split; [first [assumption|rewrite Ek; eexists; eassumption]|]). split; [rewrite Et; assumption|].
    eapply holds_ext; [exact Hb2|]. intros r p _ _. apply rowfill_upd. lia.
Qed.

Lemma share_secret_sim secret tapes (tp : list bytes) off len dst fd :
  length tp = n -> (forall p, p < n -> k_get tapes rep p = Ok (nth p tp [])) -> holds dst T n len fd ->
  sim (fun x m => fst m = fst x /\ length (snd x) = n /\ holds (snd m) T n len (rowfill fd rep (snd x)))
    (share_secret I secret tp off len) (m_share_secret I secret tapes rep off len dst).
Proof.
  intros L HT Hd. apply sim_okub.
  { unfold share_secret, tape_shares. apply okub_bind; [apply okub_mapM; intros p; apply okub_bind; [apply okub_get|intros; apply okub_read]|].
    intros sh. apply okub_bind; [apply okub_foldM; intros; apply okub_xor|]. intros d. apply okub_bind; [|intros; exact Logic.I].
    unfold fix_first. apply okub_bind; [apply okub_get|]. intros x. apply okub_bind; [apply okub_xor|]. intros y. apply okub_set. }
  intros [delta shares] E. unfold share_secret in E. apply bind_ok in E as (sh & Esh & E). apply bind_ok in E as (d & Ed & E).
  apply bind_ok in E as (sh' & Efix & E). injection E as <- <-. unfold m_share_secret.
  assert (G : forall k acc (sh : list bytes) dst secret, mapM (fun party => do tp0 <- get tp party; read tp0 off len) (seq (length acc) k) = Ok sh ->
    foldM (fun d s => xor_into s d) sh secret = Ok d -> length acc + k = n -> holds dst T n len (rowfill fd rep acc) ->
    exists dst', foldM (fun m party => let '(delta, dst) := m in
      do x <- m_tape tapes rep party off len; do dst <- m_copy dst rep party x; do sh <- k_get dst rep party;
      do delta <- xor_into sh delta; Ok (delta, dst)) (seq (length acc) k) (secret, dst) = Ok (d, dst') /\ holds dst' T n len (rowfill fd rep (acc ++ sh))).
  { clear sh Esh Ed Efix sh' Hd dst secret. induction k as [|k IH]; intros acc sh dst secret E1 E2 Lk Hd; cbn [seq mapM foldM] in E1 |- *.
    - injection E1 as <-. cbn [foldM] in E2. injection E2 as ->. exists dst. rewrite app_nil_r. auto.
    - apply bind_ok in E1 as (x & Ex & E1). apply bind_ok in E1 as (xs & Exs & E1). injection E1 as <-. cbn [foldM] in E2. apply bind_ok in E2 as (d1 & Ed1 & E2).
      rewrite (get_ok tp (length acc) []) in Ex by lia. cbn [bind] in Ex. unfold m_tape at 1. rewrite HT by lia. cbn [bind].
      match goal with |- context [read ?a off len] => change (read a off len) with (read (nth (length acc) tp []) off len) end. rewrite Ex. cbn [bind].
      destruct (row_write T n len rep Hr fd dst acc x Hd ltac:(lia) (read_len _ _ _ _ Ex)) as (dst1 & Ec & Hd1). rewrite Ec. cbn [bind].
      rewrite (holds_get _ _ _ _ _ rep (length acc) Hd1 Hr ltac:(lia)). cbn [bind].
      rewrite rowfill_at by (rewrite app_length; cbn [length]; lia). rewrite app_nth2, Nat.sub_diag by lia. cbn [nth]. rewrite Ed1. cbn [bind].
      pose proof (IH (acc ++ [x]) xs dst1 d1) as IH1. rewrite app_length in IH1. cbn [length] in IH1. replace (length acc + 1) with (S (length acc)) in IH1 by lia.
      destruct (IH1 Exs E2 ltac:(lia) Hd1) as (dst' & E' & H'). exists dst'. split; [exact E'|]. rewrite <- app_assoc in H'. exact H'. }
  unfold tape_shares in Esh. destruct (G n [] sh dst secret Esh Ed eq_refl) as (dst1 & E1 & Hd1).
  { eapply holds_ext; [exact Hd|]. intros r p _ _. rewrite rowfill_nil. reflexivity. }
  cbn [length] in E1. rewrite E1. cbn [bind]. cbn [app] in Hd1.
  assert (Ls : length sh = n) by (rewrite (mapM_length _ _ _ Esh); apply seq_length).
  pose proof (fix_first_sim d sh dst1 fd len Ls Hd1) as SF. rewrite Efix in SF. destruct SF as (dst2 & E2 & L2 & H2). rewrite E2. cbn [bind].
  eexists. split; [reflexivity|]. cbn [fst snd]. auto.
Qed.
Lemma sign_phase1_sim key t_vals pt tapes (tp : list bytes) h fk ft fs fb :
  length tp = n -> (forall p, p < n -> k_get tapes rep p = Ok (nth p tp [])) ->
  holds (h_keys h) T n ks fk -> holds (h_t h) T n sb ft -> holds (h_s h) T n sb fs -> holds (h_bcast h) T n (pt_size I) fb ->
  sim (fun x m => fst m = (r1_key_delta x, r1_t_delta x) /\ length (r1_s x) = n /\ length (r1_t x) = n /\ length (r1_bcast x) = n /\ (exists fk', holds (h_keys (snd m)) T n ks fk') /\ holds (h_s (snd m)) T n sb (rowfill fs rep (r1_s x)) /\ holds (h_t (snd m)) T n sb (rowfill ft rep (r1_t x)) /\ holds (h_bcast (snd m)) T n (pt_size I) (rowfill fb rep (r1_bcast x)))
    (sign_phase1 I key t_vals pt tp) (m_sign_phase1 I key t_vals pt tapes rep h).
Proof.
  intros L HT Hk Ht Hs Hb. unfold sign_phase1, m_sign_phase1.
  eapply sim_bind; [apply share_secret_sim; eassumption|]. intros [kd keys] [kd' kc] _ (E1 & Lk & Hk1). cbn [fst snd] in *. subst kd'.
  eapply sim_bind; [apply share_secret_sim; eassumption|]. intros [td ts] [td' tc] _ (E1 & Lt & Ht1). cbn [fst snd] in *. subst td'.
  eapply sim_bind; [apply (aes_sim pt keys ts fk ft fs fb (mkShares kc tc (h_s h) (h_bcast h))); assumption|].
  intros out h' _ (Lo & F & Ek & Et & Hs' & Hb'). cbn [h_keys h_t] in Ek, Et. apply sim_ok. cbn [fst snd r1_key_delta r1_t_delta r1_s r1_t r1_bcast].
  rewrite !map_length. repeat (split; [first [reflexivity|assumption|rewrite Ek; eexists; eassumption]|]). split; [rewrite Et; assumption|assumption].
Qed.
End Phase1.
