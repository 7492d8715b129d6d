(** How many outputs of the random source lead to a given key pair (C63). *)
From Coq Require Import Arith NArith ZArith List Bool Lia.
From Verif Require Import Prelude FieldModel Instances AesSpec AesBase AesApi AesShares BanquetModel BanquetPure BanquetSign BanquetVerify BanquetApi SignFacts Unbias UnbiasApi FreeSpec.
Import ListNotations.

(** the random source that hands out the bytes of s one after the other, ks to the even, ps to the odd calls *)
Definition from_bytes_of (ks ps : nat) (s : bytes) : rng :=
  fun i => (true, if Nat.even i then slice s (i / 2 * (ks + ps)) ks else slice s (i / 2 * (ks + ps) + ks) ps).

Section Key.
Variables (I : instance) (c : fctx).
Hypothesis OK : inst_ok I c (nk_of I).
Notation ks := (key_size (i_aes I)).
Notation ps := (pt_size I).
Notation w := (ks + ps).
Definition key_good (a : bytes) : bool := match aes_n (nk_of I) (firstn ks a) (skipn ks a) with Some _ => true | None => false end.
Definition key_of (a : bytes) : keypair :=
  (firstn ks a, skipn ks a ++ match aes_n (nk_of I) (firstn ks a) (skipn ks a) with Some ct => ct | None => [] end).

Lemma str_firstn_app n k a : str (n + k) a -> str n (firstn n a) /\ str k (skipn n a).
Proof.
  intros [L F]. split; split; [rewrite firstn_length; lia|apply is_bytes_firstn; exact F|rewrite skipn_length; lia|apply is_bytes_skipn; exact F].
Qed.
Lemma slice_slice (s : bytes) o n i m : i + m <= n -> slice (slice s o n) i m = slice s (o + i) m.
Proof.
  intros H. unfold slice. rewrite skipn_firstn_comm, firstn_firstn, Nat.min_l by lia. f_equal. rewrite Nat.add_comm.
  revert s. induction o as [|o IH]; intros s; [rewrite Nat.add_0_r; reflexivity|]. rewrite Nat.add_succ_r. destruct s as [|x s]; [cbn [skipn]; apply skipn_nil|]. cbn [skipn]. apply IH.
Qed.
Lemma key_loop q s fuel : forall k key pt, length key = ks -> length pt = ps -> str (q * w) s -> k + fuel <= q ->
  keygen_loop fuel I (from_bytes_of ks ps s) (2 * k) key pt = match filter key_good (map (window w s) (seq k fuel)) with a :: _ => Ok (key_of a) | [] => OutOfFuel end.
Proof.
  induction fuel as [|f IH]; intros k key pt Lk Lp Hs Hq; [reflexivity|]. cbn [keygen_loop seq map filter].
  assert (EV : Nat.even (2 * k) = true) by (apply Nat.even_spec; exists k; reflexivity).
  assert (OD : Nat.even (2 * k + 1) = false) by (rewrite Nat.even_add, EV; reflexivity).
  assert (D0 : 2 * k / 2 = k) by (rewrite Nat.mul_comm; apply Nat.div_mul; lia). assert (D1 : (2 * k + 1) / 2 = k) by (rewrite Nat.mul_comm, Nat.div_add_l by lia; rewrite Nat.add_0_r; reflexivity).
  destruct (window_str w q s k Hs ltac:(lia)) as [WL WF].
  assert (FK : slice s (k * w) ks = firstn ks (window w s k)) by (unfold window, slice; rewrite firstn_firstn, Nat.min_l by lia; reflexivity).
  assert (FP : slice s (k * w + ks) ps = skipn ks (window w s k)).
  { unfold window. rewrite <- (slice_slice s (k * w) w ks ps) by lia. unfold slice at 1. apply firstn_all2. rewrite skipn_length. unfold window in WL. rewrite WL. lia. }
  destruct (str_firstn_app ks ps (window w s k) (conj WL WF)) as [S1 S2].
  unfold rand_bytes, from_bytes_of. rewrite EV, OD, D0, D1. cbn [snd]. rewrite FK, FP.
  rewrite copy_into_ok by (rewrite (proj1 S1); auto). cbn [bind]. rewrite copy_into_ok by (rewrite (proj1 S2); auto). cbn [bind].
  rewrite (aes_plain_ok I c (nk_of I) _ _ OK S1 S2). cbn [bind]. unfold key_good at 1. unfold key_of.
  destruct (aes_n (nk_of I) (firstn ks (window w s k)) (skipn ks (window w s k))) as [ct|] eqn:E; [rewrite E; reflexivity|].
  replace (2 * k + 2) with (2 * S k) by lia. fold (from_bytes_of ks ps s). rewrite (IH (S k)); [unfold key_of; reflexivity|apply S1|apply S2|exact Hs|lia].
Qed.
Lemma key_count q : exists K, (1 <= q -> 1 <= K) /\ forall key pt ct, str ks key -> str ps pt -> aes_n (nk_of I) key pt = Some ct -> exists l, NoDup l /\ length l = K /\
  forall s, In s l <-> str (q * w) s /\ keygen q I (from_bytes_of ks ps s) = Ok (key, pt ++ ct).
Proof.
  exists (ways _ _ (all_strings w) (fun a => a) key_good 1 1 q). split.
  - intros Hq. apply ways_pos; [lia| |exact Hq]. intros Q. pose proof (length_all_strings w) as L. rewrite Q in L. cbn [length] in L. symmetry in L. revert L. apply Nat.pow_nonzero. discriminate.
  - intros key pt ct Hk Hp Hct.
    assert (F1 : firstn ks (key ++ pt) = key) by (rewrite firstn_app, (proj1 Hk), Nat.sub_diag; cbn [firstn]; rewrite app_nil_r; apply firstn_all2; rewrite (proj1 Hk); apply le_n).
    assert (F2 : skipn ks (key ++ pt) = pt) by (rewrite skipn_app, (proj1 Hk), Nat.sub_diag, skipn_all2 by (rewrite (proj1 Hk); apply le_n); reflexivity).
    assert (SS : str w (key ++ pt)) by (split; [rewrite app_length, (proj1 Hk), (proj1 Hp); reflexivity|apply is_bytes_app; [apply Hk|apply Hp]]).
    destruct (count_strings bytes (list_eq_dec N.eq_dec) w (fun a => a) key_good 1 (fun a => str w a /\ key_good a = true)
      ltac:(intros b [Hb _]; unfold fibre; apply (filter_one _ b); [apply NoDup_tuples, NoDup_all_bytes|apply in_all_strings; exact Hb|apply eqB_true; reflexivity|intros x _ X; apply eqB_true in X; exact X])
      ltac:(intros b [_ Hb]; exact Hb) q [key ++ pt]) as (l & ND & IN & C).
    { constructor; [|constructor]. split; [exact SS|]. unfold key_good. rewrite F1, F2, Hct. reflexivity. }
    exists l. split; [exact ND|]. split; [exact C|]. intros s. rewrite IN. cbn [length]. split; intros [Hs D]; (split; [exact Hs|]).
    + unfold keygen. etransitivity; [exact (key_loop q s q 0 _ _ (repeat_length _ _) (repeat_length _ _) Hs (le_n q))|].
      unfold drawn in D. rewrite <- (map_ext (window w s) (fun k => window w s k) (fun k => eq_refl)) in D.
      destruct (filter key_good (map (window w s) (seq 0 q))) as [|a r]; [discriminate D|]. cbn [firstn] in D. injection D as ->. unfold key_of. rewrite F1, F2, Hct. reflexivity.
    + unfold keygen in D. apply (eq_trans (eq_sym (key_loop q s q 0 _ _ (repeat_length _ _) (repeat_length _ _) Hs (le_n q)))) in D.
      unfold drawn. assert (FA : Forall (str w) (filter key_good (map (window w s) (seq 0 q)))).
      { apply Forall_forall. intros a Ha. apply filter_In in Ha. destruct Ha as [Ha _]. apply in_map_iff in Ha. destruct Ha as (k & <- & Hk'). apply in_seq in Hk'. apply (window_str w q); [exact Hs|lia]. }
      assert (FG : Forall (fun a => key_good a = true) (filter key_good (map (window w s) (seq 0 q)))) by (apply Forall_forall; intros a Ha; apply filter_In in Ha; apply Ha).
      change (map (fun k => window w s k) (seq 0 q)) with (map (window w s) (seq 0 q)).
      destruct (filter key_good (map (window w s) (seq 0 q))) as [|a r]; [discriminate D|]. cbn [firstn]. f_equal. inversion_clear FA as [|? ? Ha _]. inversion_clear FG as [|? ? Ga _].
      unfold key_of in D. destruct (str_firstn_app ks ps a Ha) as [S1 S2]. injection D as D1 D2. apply UnbiasApi.app_len_inj in D2; [|rewrite (proj1 S2), (proj1 Hp); reflexivity].
      rewrite <- (firstn_skipn ks a), D1, (proj1 D2). reflexivity.
Qed.
End Key.

Lemma key_api I q : regular I ->
  let ks := key_size (i_aes I) in let ps := block_size (i_aes I) * num_blocks (i_aes I) in let nk := ks / 4 in
  exists K, (1 <= q -> 1 <= K) /\ forall key pt, str ks key -> str ps pt -> ~ In 0%N (all_sbox_inputs nk key (blocks nk pt)) -> exists l, NoDup l /\ length l = K /\
  forall s, In s l <-> str (q * (ks + ps)) s /\ keygen q I (from_bytes_of ks ps s) = Ok (key, pt ++ flat_map (cipher nk key) (blocks nk pt)).
Proof.
  intros HB ks ps nk. destruct (regular_inst_ok I HB) as [c OK]. destruct (key_count I c OK q) as (K & HK & C). exists K. split; [exact HK|].
  intros key pt Hk Hp Hz. pose proof (inst_aes_in I c _ _ _ OK Hk Hp) as Hin. destruct (aes_n (nk_of I) key pt) as [ct|] eqn:Ea; [|exfalso; apply Hz; apply (aes_none _ _ _ Hin); exact Ea].
  destruct (aes_pairs _ _ _ _ Hin Ea) as (s & t & E' & Es & _). destruct (records_some _ _ _ ct (aes_records _ _ _ Hin) ltac:(rewrite E'; reflexivity)) as (_ & E & _). change nk with (nk_of I). rewrite <- E.
  exact (C key pt ct Hk Hp Ea).
Qed.
