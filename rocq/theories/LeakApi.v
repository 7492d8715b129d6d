(** The lookups of a signing call (C60). *)
From Coq Require Import Arith NArith ZArith List Bool Lia.
From Verif Require Import Prelude FieldModel FieldSpec FieldApi PolyModel Instances HashModel TreeModel TreeSpec AesSpec AesModel AesBase AesPlain AesApi AesShares BanquetModel ListSum BanquetPure BanquetVerify BanquetSign BanquetRun Serialize BanquetApi ShareFacts KeygenFacts History LeakModel LeakSpec LeakFacts LeakAes FreeSpec.
Import ListNotations.

Lemma lbind_ok {A B} (m : logged A) (f : A -> logged B) l b : lbind m f = (l, Ok b) ->
  exists l1 a l2, m = (l1, Ok a) /\ f a = (l2, Ok b) /\ l = l1 ++ l2.
Proof.
  destruct m as [l1 [a|e|u|]]; unfold lbind; cbn [fst snd]; intros E; try discriminate E. destruct (f a) as [l2 r] eqn:Ef. cbn [fst snd] in E. injection E as <- ->.
  exists l1, a, l2. auto.
Qed.
Lemma quiet_ok {A B} (m : res A) (f : A -> logged B) l b : lbind (quiet m) f = (l, Ok b) -> exists a, m = Ok a /\ f a = (l, Ok b).
Proof. intros E. apply lbind_ok in E. destruct E as (l1 & a & l2 & E1 & E2 & ->). injection E1 as <- ->. exists a. auto. Qed.
Lemma lmapM_ok {A B} (f : A -> logged B) (F : A -> list N) xs : forall l bs, (forall x l b, In x xs -> f x = (l, Ok b) -> l = F x) ->
  lmapM f xs = (l, Ok bs) -> l = flat_map F xs.
Proof.
  induction xs as [|x xs IH]; intros l bs HF E; cbn [lmapM] in E; [injection E as <- _; reflexivity|].
  apply lbind_ok in E. destruct E as (l1 & b & l2 & E1 & E2 & ->). apply lbind_ok in E2. destruct E2 as (l3 & bs' & l4 & E3 & E4 & ->). injection E4 as <- _.
  cbn [flat_map]. rewrite app_nil_r. f_equal; [apply (HF x l1 b); [left; reflexivity|exact E1]|]. apply (IH l3 bs'); [|exact E3]. intros y l' b' Hy. apply HF. right. exact Hy.
Qed.
Lemma flat_map_ext_in' {A B} (f g : A -> list B) l : (forall x, In x l -> f x = g x) -> flat_map f l = flat_map g l.
Proof. intros E. induction l as [|x l IH]; [reflexivity|]. cbn [flat_map]. rewrite E by (left; reflexivity). f_equal. apply IH. intros y Hy. apply E. right. exact Hy. Qed.
(** blocks of equal length *)
Lemma flat_map_seq_length {B} (F : nat -> list B) b n : forall s, (forall i, s <= i < s + n -> length (F i) = b) -> length (flat_map F (seq s n)) = n * b.
Proof. induction n as [|n IH]; intros s HF; [reflexivity|]. cbn [seq flat_map Nat.mul]. rewrite app_length, (HF s), IH by lia || (intros; apply HF; lia). lia. Qed.
Lemma flat_map_seq_nth {B} (F : nat -> list B) b n d : forall s, (forall i, s <= i < s + n -> length (F i) = b) ->
  forall i r, i < n -> r < b -> nth (b * i + r) (flat_map F (seq s n)) d = nth r (F (s + i)) d.
Proof.
  induction n as [|n IH]; intros s HF i r Hi Hr; [lia|]. cbn [seq flat_map]. destruct i as [|i].
  - rewrite Nat.mul_0_r, Nat.add_0_l, Nat.add_0_r. rewrite app_nth1 by (rewrite HF by lia; lia). reflexivity.
  - rewrite app_nth2 by (rewrite HF by lia; nia). rewrite HF by lia. replace (b * S i + r - b) with (b * i + r) by nia.
    rewrite IH by (try lia; intros; apply HF; lia). f_equal. f_equal. lia.
Qed.

Definition two (s t : bytes) (i : nat) : list N := [nth i s 0%N; nth i t 0%N].
Lemma get_nth (s : bytes) i x : get s i = Ok x -> x = nth i s 0%N.
Proof. intros E. apply get_inv in E. destruct E as [E _]. symmetry. apply nth_error_nth with (1 := E). Qed.
Lemma log_two c s t (g : nat -> nat) xs l ys :
  lmapM (fun k => obs x <- quiet (get s (g k)); obs x <- log_lift c x; obs y <- quiet (get t (g k)); obs y <- log_lift c y; quiet (Ok (x, y))) xs = (l, Ok ys) ->
  l = flat_map (fun k => two s t (g k)) xs.
Proof.
  apply lmapM_ok. intros k l0 b _ E. apply quiet_ok in E. destruct E as (x & Ex & E). apply lbind_ok in E. destruct E as (l1 & a & l2 & E1 & E & ->).
  injection E1 as <- <-. apply quiet_ok in E. destruct E as (y & Ey & E). apply lbind_ok in E. destruct E as (l1 & a & l3 & E1 & E & ->). injection E1 as <- <-. injection E as <- _.
  unfold two. rewrite <- (get_nth _ _ _ Ex), <- (get_nth _ _ _ Ey). reflexivity.
Qed.

Section Log.
Variable H : oracle.
Variable I : instance.
Variable c : fctx.
Lemma log_products pre last s t j l v : log_sbox_products I c pre last s t j = (l, Ok v) -> l = flat_map (fun k => two s t (j + m1 I * k)) (seq 0 (m2 I)).
Proof.
  intros E. unfold log_sbox_products in E. apply lbind_ok in E. destruct E as (l1 & a & l2 & E1 & E & ->). apply log_two in E1. subst l1.
  do 5 (apply quiet_ok in E; destruct E as (? & _ & E)). injection E as <- _. apply app_nil_r.
Qed.
Lemma log_points rs s t tp l v : log_party_points I c rs s t tp = (l, Ok v) -> l = flat_map (two s t) (seq 0 (num_sboxes (i_aes I))).
Proof.
  intros E. unfold log_party_points in E. apply lbind_ok in E. destruct E as (l1 & a & l2 & E1 & E & ->). apply (log_two c s t (fun k => k)) in E1. subst l1.
  injection E as <- _. apply app_nil_r.
Qed.
Definition share_log (p1 : rep1) : list N :=
  flat_map (fun p => flat_map (two (nth p (r1_s p1) []) (nth p (r1_t p1) [])) (seq 0 (num_sboxes (i_aes I)))) (seq 0 (num_parties I)).
Lemma get_nth_bytes (s : list bytes) i x : get s i = Ok x -> x = nth i s [].
Proof. intros E. apply get_inv in E. destruct E as [E _]. symmetry. apply nth_error_nth with (1 := E). Qed.
Lemma log_phase3 xs2 prods sq rs p1 tapes l v : log_sign_phase3 I c xs2 prods sq rs p1 tapes = (l, Ok v) -> l = share_log p1.
Proof.
  intros E. unfold log_sign_phase3 in E. apply lbind_ok in E. destruct E as (l1 & a & l2 & E1 & E & ->). injection E as <- _. rewrite app_nil_r.
  apply (lmapM_ok _ (fun p => flat_map (two (nth p (r1_s p1) []) (nth p (r1_t p1) [])) (seq 0 (num_sboxes (i_aes I))))) in E1; [exact E1|].
  intros p l0 b _ E. apply quiet_ok in E. destruct E as (s & Es & E). apply quiet_ok in E. destruct E as (t & Et & E). apply quiet_ok in E. destruct E as (tp & _ & E).
  apply log_points in E. rewrite <- (get_nth_bytes _ _ _ Es), <- (get_nth_bytes _ _ _ Et). exact E.
Qed.
Definition no_rep1 : rep1 := mkRep1 [] [] [] [] [] [].
Definition value_log (s t : bytes) : list N := flat_map (fun j => flat_map (fun k => two s t (j + m1 I * k)) (seq 0 (m2 I))) (seq 0 (m1 I)).
Lemma log_body fuel garb kp msg l sig : log_sign_body H I c fuel garb kp msg = (l, Ok sig) ->
  exists pt sb setup ph1, let '(salt, seeds) := generate_salt_and_seeds H I kp msg in
    read (snd kp) 0 (pt_size I) = Ok pt /\ aes_with_sbox_output (key_size (i_aes I)) (fst kp) pt = Ok sb /\
    mapM (fun rep => do master <- get seeds rep; sign_setup H I salt rep master) (seq 0 (num_rounds I)) = Ok setup /\
    mapM (fun rep => do tp <- get (map snd setup) rep; sign_phase1 I (fst kp) (snd (fst sb)) pt tp) (seq 0 (num_rounds I)) = Ok ph1 /\
    l = value_log (fst (fst sb)) (snd (fst sb)) ++ flat_map (fun rep => share_log (nth rep ph1 no_rep1)) (seq 0 (num_rounds I)).
Proof.
  intros E. unfold log_sign_body in E. apply quiet_ok in E. destruct E as (pt & E1 & E). apply quiet_ok in E. destruct E as (ct & _ & E). apply quiet_ok in E. destruct E as (sb & E2 & E).
  destruct (generate_salt_and_seeds H I kp msg) as [salt seeds]. apply quiet_ok in E. destruct E as (setup & E3 & E). apply quiet_ok in E. destruct E as (ph1 & E4 & E).
  do 6 (apply quiet_ok in E; destruct E as (? & _ & E)). apply lbind_ok in E. destruct E as (l1 & prods & l2 & E5 & E & ->).
  apply lbind_ok in E. destruct E as (l3 & ph3 & l4 & E6 & E & ->). injection E as <- _. rewrite app_nil_r.
  exists pt, sb, setup, ph1. do 4 (split; [assumption|]). f_equal.
  - apply (lmapM_ok _ (fun j => flat_map (fun k => two (fst (fst sb)) (snd (fst sb)) (j + m1 I * k)) (seq 0 (m2 I)))) in E5; [exact E5|].
    intros j l b _ X. apply log_products in X. exact X.
  - apply (lmapM_ok _ (fun rep => share_log (nth rep ph1 no_rep1))) in E6; [exact E6|].
    intros rep l b _ X. apply quiet_ok in X. destruct X as (rs & _ & X). apply quiet_ok in X. destruct X as (p1 & Ep & X). apply quiet_ok in X. destruct X as (tp & _ & X).
    apply log_phase3 in X. rewrite X. f_equal. apply get_inv in Ep. destruct Ep as [Ep _]. symmetry. apply nth_error_nth with (1 := Ep).
Qed.
End Log.

Lemma two_len s t i : length (two s t i) = 2. Proof. reflexivity. Qed.
Lemma value_log_length I s t : length (value_log I s t) = 2 * (m1 I * m2 I).
Proof.
  unfold value_log. rewrite (flat_map_seq_length _ (m2 I * 2)); [lia|]. intros j _. apply flat_map_seq_length. intros; apply two_len.
Qed.
Lemma share_log_length I p1 : length (share_log I p1) = 2 * (num_parties I * num_sboxes (i_aes I)).
Proof.
  unfold share_log. rewrite (flat_map_seq_length _ (num_sboxes (i_aes I) * 2)); [lia|]. intros j _. apply flat_map_seq_length. intros; apply two_len.
Qed.
Lemma value_log_nth I s t i r : 1 <= m1 I -> i < m1 I * m2 I -> r < 2 ->
  nth (2 * (m2 I * (i mod m1 I) + i / m1 I) + r) (value_log I s t) 0%N = nth r (two s t i) 0%N.
Proof.
  intros Hm Hi Hr. unfold value_log. assert (A : i mod m1 I < m1 I) by (apply Nat.mod_upper_bound; lia). assert (B : i / m1 I < m2 I) by (apply Nat.div_lt_upper_bound; lia).
  replace (2 * (m2 I * (i mod m1 I) + i / m1 I) + r) with ((m2 I * 2) * (i mod m1 I) + (2 * (i / m1 I) + r)) by lia.
  rewrite (flat_map_seq_nth _ (m2 I * 2)); [|intros; apply flat_map_seq_length; intros; apply two_len|lia|lia].
  rewrite (flat_map_seq_nth _ 2); [|intros; apply two_len|lia|lia]. f_equal. f_equal. rewrite (Nat.div_mod i (m1 I)) at 3 by lia. lia.
Qed.
Lemma trace_of_value_log I s t l : 1 <= m1 I -> length s = m1 I * m2 I -> length t = m1 I * m2 I ->
  trace_of_lookups (m1 I) (m2 I) (value_log I s t ++ l) = s /\ inverses_of_lookups (m1 I) (m2 I) (value_log I s t ++ l) = t.
Proof.
  intros Hm Ls Lt.
  assert (B : forall i r, i < m1 I * m2 I -> r < 2 -> nth (2 * (m2 I * (i mod m1 I) + i / m1 I) + r) (value_log I s t ++ l) 0%N = nth r (two s t i) 0%N).
  { intros i r Hi Hr. rewrite app_nth1; [apply value_log_nth; assumption|]. rewrite value_log_length.
    assert (A : i mod m1 I < m1 I) by (apply Nat.mod_upper_bound; lia). assert (B : i / m1 I < m2 I) by (apply Nat.div_lt_upper_bound; lia).
    assert (C : m2 I * (i mod m1 I) + m2 I <= m2 I * m1 I) by (rewrite <- Nat.mul_succ_r; apply Nat.mul_le_mono_l; lia). lia. }
  split.
  - rewrite (list_map_nth' s (m1 I * m2 I) 0%N Ls) at 2. apply map_seq_ext. intros i Hi. specialize (B i 0 ltac:(lia) ltac:(lia)). rewrite Nat.add_0_r in B. exact B.
  - rewrite (list_map_nth' t (m1 I * m2 I) 0%N Lt) at 2. apply map_seq_ext. intros i Hi. exact (B i 1 ltac:(lia) ltac:(lia)).
Qed.

Lemma nth_firstn_lt {A} (l : list A) k i d : i < k -> nth i (firstn k l) d = nth i l d.
Proof. revert k i; induction l as [|x l IH]; intros [|k] [|i] Hi; try lia; try reflexivity. cbn. apply IH. lia. Qed.
Section Key.
Variables (H : oracle) (I : instance) (c : fctx) (nk : nat).
Hypothesis OK : inst_ok I c nk.
Hypothesis FULL : m1 I * m2 I = num_sboxes (i_aes I).
Notation sb := (num_sboxes (i_aes I)).
Notation n := (num_parties I).
Variables (key pt ct : bytes).
Hypothesis Hk : str (key_size (i_aes I)) key.
Hypothesis Hp : str (pt_size I) pt.
Hypothesis EA : aes_n nk key pt = Some ct.
Variables (fuel : nat) (garb : nat -> N) (msg : bytes) (l : list N) (sig : signature).
Hypothesis EL : log_sign_body H I c fuel garb (key, pt ++ ct) msg = (l, Ok sig).
Definition the_trace : bytes := sbox_trace nk key (blocks nk pt).

Lemma lookups : exists t ph1, str sb the_trace /\ str sb t /\ (forall i, i < sb -> fmul (nth i the_trace 0%N) (nth i t 0%N) = 1%N) /\
  l = value_log I the_trace t ++ flat_map (fun rep => share_log I (nth rep ph1 no_rep1)) (seq 0 (num_rounds I)) /\
  forall rep, rep < num_rounds I -> let r := nth rep ph1 no_rep1 in
    length (r1_s r) = n /\ Forall (fun b : bytes => length b = sb) (r1_s r) /\ xall sb (r1_s r) = the_trace.
Proof.
  destruct (aes_pairs nk key pt ct (inst_aes_in I c nk _ _ OK Hk Hp) EA) as (s & t & E' & Es & _).
  assert (KO : key_ok I nk key pt ct s t) by (constructor; assumption).
  destruct (key_facts I c nk OK key pt ct s t KO) as (Ss & St & _ & Hst). fold the_trace in Es. subst s.
  apply log_body in EL. destruct EL as (pt' & sb' & setup & ph1 & X). rewrite (surjective_pairing (generate_salt_and_seeds H I (key, pt ++ ct) msg)) in X.
  destruct X as (X1 & X2 & X3 & X4 & X5). cbn [fst snd] in *. destruct (read_pk I c nk OK key pt ct the_trace t KO) as [R1 _]. rewrite R1 in X1. injection X1 as <-.
  rewrite (aes_out_ok I c nk OK key pt ct the_trace t KO) in X2. injection X2 as <-. cbn [fst snd] in *.
  exists t, ph1. split; [exact Ss|]. split; [exact St|]. split; [exact Hst|]. split; [exact X5|]. intros rep Hrep. set (r := nth rep ph1 no_rep1).
  destruct (mapM_seq_inv _ _ _ (mkTree [] [] [] 0 0 0, [], []) X3) as [L3 K3]. destruct (mapM_seq_inv _ _ _ no_rep1 X4) as [L4 K4].
  specialize (K3 rep Hrep). specialize (K4 rep Hrep). fold r in K4.
  destruct (seeds_ok H I key pt ct msg) as [Ls Hseed]. rewrite (@get_ok bytes _ rep []) in K3 by (rewrite Ls; exact Hrep). cbn [bind] in K3.
  destruct (sign_setup_ok H I c nk OK (fst (generate_salt_and_seeds H I (key, pt ++ ct) msg)) rep _ (io_wide _ _ _ OK) (proj1 (Hseed rep Hrep))) as (t0 & A & _).
  unfold sg_seed in A. rewrite A in K3. injection K3 as K3.
  rewrite (@get_ok (list bytes) _ rep []) in K4 by (rewrite map_length, L3; exact Hrep). cbn [bind] in K4.
  rewrite (nth_indep _ [] (snd (mkTree [] [] [] 0 0 0, @nil bytes, @nil bytes))) in K4 by (rewrite map_length, L3; exact Hrep). rewrite map_nth, <- K3 in K4. cbn [snd] in K4.
  rewrite (sign_phase1_ok I c nk OK key pt ct the_trace t KO) in K4 by (intros p Hpn; apply tape_str). injection K4 as K4. rewrite <- K4. cbn [r1_s].
  rewrite length_map_seq. split; [reflexivity|]. split.
  - apply Forall_map, Forall_forall. intros p Hpn. apply in_seq in Hpn. apply (outs_str I c nk OK _ _ _ _ _ KO); [intros; apply tape_str|lia].
  - apply (outs_sum I c nk OK _ _ _ _ _ KO). intros; apply tape_str.
Qed.
Lemma lookups_length : length l = 2 * sb * (1 + num_rounds I * n).
Proof.
  destruct lookups as (t & ph1 & _ & _ & _ & -> & _). rewrite app_length, value_log_length, FULL.
  rewrite (flat_map_seq_length _ (2 * (n * sb))) by (intros; apply share_log_length). lia.
Qed.
Lemma lookups_key : key_of_trace nk pt (trace_of_lookups (m1 I) (m2 I) (firstn (2 * sb) l)) = key.
Proof.
  destruct lookups as (t & ph1 & [Ls _] & [Lt _] & _ & -> & _). rewrite firstn_app, value_log_length, FULL, Nat.sub_diag, firstn_O, app_nil_r.
  rewrite firstn_all2 by (rewrite value_log_length, FULL; lia).
  destruct (trace_of_value_log I the_trace t [] (io_m1 _ _ _ OK) ltac:(congruence) ltac:(congruence)) as [E _]. rewrite app_nil_r in E. rewrite E.
  apply key_of_trace_ok. apply (inst_aes_in I c nk _ _ OK Hk Hp).
Qed.
Lemma lookups_key_shares rep : rep < num_rounds I -> key_of_trace nk pt (trace_of_shares n sb (firstn (2 * sb * n) (skipn (2 * sb * (1 + rep * n)) l))) = key.
Proof.
  intros Hrep. destruct lookups as (t & ph1 & [Ls _] & _ & _ & El & HR). destruct (HR rep Hrep) as (Lr & Fr & Xr).
  assert (E : trace_of_shares n sb (firstn (2 * sb * n) (skipn (2 * sb * (1 + rep * n)) l)) = the_trace).
  { rewrite (list_map_nth' the_trace sb 0%N Ls). apply map_seq_ext. intros i Hi. cbn [Nat.add] in Hi. rewrite <- Xr at 1. rewrite nth_xall by (assumption || lia).
    rewrite (list_map_nth' (r1_s (nth rep ph1 no_rep1)) n [] Lr) at 1. rewrite map_map. change xor_all with xsum. f_equal. apply map_seq_ext. intros p Hpn. cbn [Nat.add] in Hpn.
    assert (P : sb * p + sb <= sb * n) by (rewrite <- Nat.mul_succ_r; apply Nat.mul_le_mono_l; lia).
    rewrite nth_firstn_lt by lia. rewrite nth_skipn. rewrite El, app_nth2 by (rewrite value_log_length, FULL; lia). rewrite value_log_length, FULL.
    replace (2 * sb * (1 + rep * n) + 2 * (sb * p + i) - 2 * sb) with (2 * (n * sb) * rep + (2 * (sb * p + i))) by lia.
    rewrite (flat_map_seq_nth _ (2 * (n * sb))) by (try lia; intros; apply share_log_length). cbn [Nat.add]. unfold share_log.
    replace (2 * (sb * p + i)) with (sb * 2 * p + 2 * i) by lia. rewrite (flat_map_seq_nth _ (sb * 2)) by (try lia; intros; apply flat_map_seq_length; intros; apply two_len). cbn [Nat.add].
    rewrite <- (Nat.add_0_r (2 * i)), (flat_map_seq_nth _ 2) by (try lia; intros; apply two_len). reflexivity. }
  rewrite E. apply key_of_trace_ok. apply (inst_aes_in I c nk _ _ OK Hk Hp).
Qed.
Lemma lines_trace a ll : length ll = 2 * (m1 I * m2 I) -> trace_of_lookups (m1 I) (m2 I) (map (line a) ll) = map (line a) (trace_of_lookups (m1 I) (m2 I) ll) /\ inverses_of_lookups (m1 I) (m2 I) (map (line a) ll) = map (line a) (inverses_of_lookups (m1 I) (m2 I) ll).
Proof.
  intros L. pose proof (io_m1 _ _ _ OK) as Hm. assert (G : forall i r, i < m1 I * m2 I -> r < 2 ->
    nth (2 * (m2 I * (i mod m1 I) + i / m1 I) + r) (map (line a) ll) 0%N = line a (nth (2 * (m2 I * (i mod m1 I) + i / m1 I) + r) ll 0%N)).
  { intros i r Hi Hr. assert (A : i mod m1 I < m1 I) by (apply Nat.mod_upper_bound; lia). assert (B : i / m1 I < m2 I) by (apply Nat.div_lt_upper_bound; lia).
    assert (C : m2 I * (i mod m1 I) + m2 I <= m2 I * m1 I) by (rewrite <- Nat.mul_succ_r; apply Nat.mul_le_mono_l; lia).
    rewrite (nth_indep _ 0%N (line a 0%N)) by (rewrite map_length; lia). apply map_nth. }
  unfold trace_of_lookups, inverses_of_lookups. rewrite !map_map. split; apply map_seq_ext; intros i Hi.
  - specialize (G i 0 ltac:(lia) ltac:(lia)). rewrite Nat.add_0_r in G. exact G.
  - apply G; lia.
Qed.
Lemma lines_key a : In (firstn 16 key) (candidates nk (m1 I) (m2 I) a pt (map (line a) (firstn (2 * sb) l))).
Proof.
  pose proof (inst_aes_in I c nk _ _ OK Hk Hp) as A. destruct lookups as (t & ph1 & [Ls Bs] & [Lt Bt] & Hst & -> & _).
  rewrite firstn_app with (l1 := value_log I the_trace t), value_log_length, FULL, Nat.sub_diag, firstn_O, app_nil_r. rewrite (firstn_all2 (value_log I the_trace t)) by (rewrite value_log_length, FULL; lia).
  destruct (trace_of_value_log I the_trace t [] (io_m1 _ _ _ OK) ltac:(congruence) ltac:(congruence)) as [E E']. rewrite app_nil_r in E, E'.
  unfold candidates. destruct (lines_trace a (value_log I the_trace t) (value_log_length I the_trace t)) as [-> ->]. rewrite E, E'.
  apply in_map_iff. exists (firstn 16 (skipn (schedule_sboxes nk) the_trace)). split.
  - destruct (first_states nk key pt A) as [X _]. fold the_trace in X. rewrite X, unrows_rows by (apply state0_len; exact A).
    rewrite first_round_key by exact A. apply (first_key_bytes nk key pt A).
  - assert (L16 : schedule_sboxes nk + 16 <= sb).
    { rewrite (io_sb _ _ _ OK). destruct (io_nk _ _ _ OK) as [<-|[<-|[<-|[]]]]; cbn; lia. }
    apply choices_in. assert (X : firstn 16 (skipn (schedule_sboxes nk) the_trace) = map (fun i => nth i the_trace 0%N) (seq (schedule_sboxes nk) 16)).
    { apply (nth_ext _ _ 0%N 0%N); [rewrite firstn_length, skipn_length, map_length, seq_length; lia|]. rewrite firstn_length, skipn_length. intros i Hi.
      rewrite nth_firstn_lt by lia. rewrite nth_skipn.
      rewrite (nth_indep (map _ _) 0%N ((fun j => nth j the_trace 0%N) 0)) by (rewrite map_length, seq_length; lia). rewrite (map_nth (fun j => nth j the_trace 0%N)), seq_nth by lia. reflexivity. }
    rewrite X. assert (G : forall i, In i (seq (schedule_sboxes nk) 16) -> In (nth i the_trace 0%N) (in_lines a (nth i (map (line a) the_trace) 0%N) (nth i (map (line a) t) 0%N))).
    { intros i Hi. apply in_seq in Hi. rewrite !(nth_indep (map _ _) 0%N (line a 0%N)) by (rewrite map_length; lia). rewrite !map_nth.
      apply in_lines_In; [apply is_bytes_nth; exact Bs|reflexivity|]. f_equal. apply finv8_unique; [apply is_bytes_nth; exact Bs|apply is_bytes_nth; exact Bt|apply Hst; lia]. }
    revert G. generalize (seq (schedule_sboxes nk) 16). clear. induction l as [|i is IH]; intros G; constructor; [apply G; left; reflexivity|apply IH; intros j Hj; apply G; right; exact Hj].
Qed.
End Key.

(** *** for the parameter sets *)
Lemma regular_full I : regular I -> m1 I * m2 I = num_sboxes (i_aes I).
Proof. exact (regular_mm I). Qed.
Lemma log_sign_ok H fuel garb st I c kp msg : init_extension_field (lambda I) = Ok c -> log_sign H fuel garb st I kp msg = log_sign_body H I c fuel garb kp msg.
Proof. intros E. unfold log_sign, st_init. rewrite E. reflexivity. Qed.
Lemma firstn_pk (pt ct : bytes) k : k <= length pt -> firstn k (pt ++ ct) = firstn k pt.
Proof. intros L. rewrite firstn_app. replace (k - length pt) with 0 by lia. rewrite firstn_O. apply app_nil_r. Qed.
Lemma key_of_trace_pk nk p p' s : firstn 16 p = firstn 16 p' -> key_of_trace nk p s = key_of_trace nk p' s.
Proof. intros E. unfold key_of_trace. rewrite E. reflexivity. Qed.
Lemma candidates_pk nk m m' a p p' s : firstn 16 p = firstn 16 p' -> candidates nk m m' a p s = candidates nk m m' a p' s.
Proof. intros E. unfold candidates. rewrite E. reflexivity. Qed.
Lemma api_leak H I kf r key pk fuel garb st msg l sig : regular I -> rng_bytes r -> keygen kf I r = Ok (key, pk) -> log_sign H fuel garb st I (key, pk) msg = (l, Ok sig) ->
  length l = 2 * num_sboxes (i_aes I) * (1 + num_rounds I * num_parties I) /\
  key_of_trace (nk_of I) pk (trace_of_lookups (m1 I) (m2 I) (firstn (2 * num_sboxes (i_aes I)) l)) = key /\
  (forall e, e < num_rounds I -> key_of_trace (nk_of I) pk (trace_of_shares (num_parties I) (num_sboxes (i_aes I))
     (firstn (2 * num_sboxes (i_aes I) * num_parties I) (skipn (2 * num_sboxes (i_aes I) * (1 + e * num_parties I)) l))) = key) /\
  forall a, In (firstn 16 key) (candidates (nk_of I) (m1 I) (m2 I) a pk (map (line a) (firstn (2 * num_sboxes (i_aes I)) l))).
Proof.
  intros HB HR EK EL. destruct (regular_inst_ok I HB) as [c OK]. destruct (keygen_ok I c _ r kf _ OK HR EK) as (key' & pt & ct & E & Hk & Hp & EA). injection E as <- ->.
  rewrite (log_sign_ok H fuel garb st I c _ msg (io_field _ _ _ OK)) in EL. pose proof (regular_full I HB) as F.
  assert (P : firstn 16 (pt ++ ct) = firstn 16 pt).
  { apply firstn_pk. destruct Hp as [-> _]. rewrite (io_pt _ _ _ OK). destruct (io_nk _ _ _ OK) as [<-|[<-|[<-|[]]]]; cbn; lia. }
  split; [exact (lookups_length H I c _ OK F key pt ct Hk Hp EA fuel garb msg l sig EL)|].
  split; [rewrite (key_of_trace_pk _ _ _ _ P); exact (lookups_key H I c _ OK F key pt ct Hk Hp EA fuel garb msg l sig EL)|].
  split; [intros e He; rewrite (key_of_trace_pk _ _ _ _ P); exact (lookups_key_shares H I c _ OK F key pt ct Hk Hp EA fuel garb msg l sig EL e He)|].
  intros a. rewrite (candidates_pk _ _ _ _ _ _ _ P). exact (lines_key H I c _ OK F key pt ct Hk Hp EA fuel garb msg l sig EL a).
Qed.
Lemma candidates_few b nk m m' a pk lines : few_of pairs b a = true -> length (candidates nk m m' a pk lines) <= b ^ 16.
Proof.
  intros F. unfold candidates. rewrite map_length. match goal with |- length (choices ?x) <= _ => assert (L : length x = 16) by (rewrite map_length; apply seq_length); rewrite <- L end.
  apply choices_length. intros x Hx. apply in_map_iff in Hx. destruct Hx as (i & <- & _). apply few_ok. exact F.
Qed.
