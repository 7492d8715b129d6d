(** The plain and the recording evaluation of AesModel in terms of FIPS-197. *)
From Coq Require Import Arith NArith List Bool Lia Btauto.
From Verif Require Import Prelude Clmul Gf8 AesSpec AesModel AesBase AesKs.
Import ListNotations.
Local Open Scope N_scope.

(** ** zero tests *)
Lemma has_zero_app a b : has_zero (a ++ b) = has_zero a || has_zero b.
Proof. apply existsb_app. Qed.
Lemma has_zero_iff l : has_zero l = true <-> In 0 l.
Proof.
  unfold has_zero. rewrite existsb_exists. split.
  - intros (x & H & E). apply N.eqb_eq in E. subst. assumption.
  - intros H. exists 0. split; auto.
Qed.
Lemma has_zero_perm a b : (forall x, In x a <-> In x b) -> has_zero a = has_zero b.
Proof.
  intros H. destruct (has_zero a) eqn:E1, (has_zero b) eqn:E2; auto.
  - apply has_zero_iff in E1. apply H in E1. apply has_zero_iff in E1. congruence.
  - apply has_zero_iff in E2. apply H in E2. apply has_zero_iff in E2. congruence.
Qed.
Lemma has_zero_rot w : has_zero (rotword w) = has_zero w.
Proof.
  apply has_zero_perm. intros x. destruct w as [|y w]; [tauto|].
  cbn [rotword]. rewrite in_app_iff. simpl. tauto.
Qed.
Lemma rows_eq m : rows m = map (fun i => nth i m 0) tr_idx.
Proof. reflexivity. Qed.
Lemma has_zero_rows m : length m = 16%nat -> has_zero (rows m) = has_zero m.
Proof.
  intros H. apply has_zero_perm. intros x. dlist m H.
  unfold rows. cbn. tauto.
Qed.

(** ** the recording evaluation, when no check fails *)
Definition ext (st : saved) (l : bytes) : saved := (fst st ++ l, snd st ++ map inverse l).
Lemma ext_nil st : ext st [] = st.
Proof. unfold ext. simpl. rewrite !app_nil_r. destruct st; reflexivity. Qed.
Lemma ext_ext st a b : ext (ext st a) b = ext st (a ++ b).
Proof. unfold ext. cbn [fst snd]. rewrite map_app, !app_assoc. reflexivity. Qed.
Lemma push_ext st s : push st s = ext st [s].
Proof. reflexivity. Qed.
Lemma fold_push l : forall st, fold_left push l st = ext st l.
Proof.
  induction l as [|x l IH]; intros st; cbn [fold_left]; [symmetry; apply ext_nil|].
  rewrite IH, push_ext, ext_ext. reflexivity.
Qed.
(** [sv_is x l st r]: x records the list l, and returns r, unless l contains a zero *)
Definition sv_is {A} (x : sv A) (st : saved) (l : bytes) (r : A) : Prop :=
  if has_zero l then snd x = None /\ exists l', fst x = ext st l' /\ has_zero l' = false /\ (length l' < length l)%nat
  else x = sret (ext st l) r.

Lemma sbind_is {A B} (x : sv A) st l r (f : saved -> A -> sv B) l' r' :
  sv_is x st l r -> sv_is (f (ext st l) r) (ext st l) l' r' ->
  sv_is (sbind x f) st (l ++ l') r'.
Proof.
  unfold sv_is. rewrite has_zero_app. intros Hx Hf.
  destruct (has_zero l) eqn:El; cbn [orb].
  - destruct Hx as [Hn (l1 & E & Z & Hl)]. destruct x as [st1 o]. cbn [fst snd] in *. subst o. cbn [sbind fst snd].
    split; [reflexivity|]. exists l1. rewrite app_length. split; [assumption|]. split; [assumption|lia].
  - subst x. cbn [sbind sret]. destruct (has_zero l').
    + destruct Hf as [Hn (l1 & E & Z & Hl)]. split; [assumption|]. exists (l ++ l1).
      rewrite E, ext_ext, has_zero_app, El, Z, !app_length. repeat split. lia.
    + rewrite Hf, ext_ext. reflexivity.
Qed.
Lemma sret_is {A} st (r : A) : sv_is (sret st r) st [] r.
Proof. unfold sv_is. cbn. rewrite ext_nil. reflexivity. Qed.
Lemma sv_app_nil {A} (x : sv A) st l r : sv_is x st (l ++ []) r -> sv_is x st l r.
Proof. rewrite app_nil_r. auto. Qed.

Lemma save_bytes_is m idx : forall st, sv_is (save_bytes m idx st) st (map (extract_epi8 m) idx) tt.
Proof.
  induction idx as [|i idx IH]; intros st; cbn [save_bytes map]; [apply sret_is|].
  set (s := extract_epi8 m i).
  unfold sv_is. cbn [has_zero existsb]. fold (has_zero (map (extract_epi8 m) idx)).
  destruct (s =? 0) eqn:E; cbn [orb].
  - cbn [fst snd]. split; [reflexivity|]. exists []. rewrite ext_nil. repeat split. cbn. lia.
  - specialize (IH (push st s)). unfold sv_is in IH.
    destruct (has_zero (map (extract_epi8 m) idx)).
    + destruct IH as [Hn (l1 & E1 & Z & Hl)]. split; [assumption|]. exists (s :: l1).
      rewrite E1, push_ext, ext_ext. cbn [has_zero existsb length app]. rewrite E. cbn [orb].
      repeat split; [exact Z|lia].
    + rewrite IH, push_ext, ext_ext. reflexivity.
Qed.
Lemma save_state_is m st : length m = 16%nat -> sv_is (save_state m st) st (rows m) tt.
Proof.
  intros H. unfold save_state, sv_is. rewrite has_zero_rows by assumption.
  destruct (has_zero m).
  - cbn [fst snd]. split; [reflexivity|]. exists []. rewrite ext_nil. repeat split.
    cbn [length]. unfold rows. rewrite map_length, seq_length. lia.
  - rewrite fold_push, <- rows_eq. reflexivity.
Qed.
Lemma save_KS_is m st : length m = 16%nat -> sv_is (save_KS m st) st (rotword (dword m 3)) tt.
Proof.
  intros H. replace (rotword (dword m 3)) with (map (extract_epi8 m) [13;14;15;12]%nat); [apply save_bytes_is|].
  dlist m H. reflexivity.
Qed.
Lemma save_KS_192_is m st : length m = 16%nat -> sv_is (save_KS_192 m st) st (rotword (dword m 1)) tt.
Proof.
  intros H. replace (rotword (dword m 1)) with (map (extract_epi8 m) [5;6;7;4]%nat); [apply save_bytes_is|].
  dlist m H. reflexivity.
Qed.
Lemma save_KS_256_is m st : length m = 16%nat -> sv_is (save_KS_256 m st) st (dword m 3) tt.
Proof.
  intros H. replace (dword m 3) with (map (extract_epi8 m) [12;13;14;15]%nat); [apply save_bytes_is|].
  dlist m H. reflexivity.
Qed.

(** key schedules *)
Lemma ks128_save_is rcs : forall j key st, reg_ok key -> rc_ok j rcs ->
  sv_is (ks128_save key rcs st) st (snd (v128 key rcs)) (fst (v128 key rcs)).
Proof.
  induction rcs as [|rc rcs IH]; intros j key st Hk Hrc; cbn [ks128_save v128]; [apply sret_is|].
  apply rc_ok_cons in Hrc as (Hj & Hlt & Hrc).
  set (key' := aes_128_key_expansion key (aeskeygenassist key rc)).
  assert (Hk' : reg_ok key') by (apply reg_ke128; [assumption|apply reg_assist; assumption]).
  specialize (IH (S j) key' (ext st (rotword (dword key 3))) Hk' Hrc).
  destruct (v128 key' rcs) as [ks out]. cbn [fst snd] in *.
  eapply sbind_is; [apply save_KS_is; apply Hk|].
  apply sv_app_nil. eapply sbind_is; [exact IH|]. apply sret_is.
Qed.
Lemma ks192_save_is rcs : forall j t1 t3 st, reg_ok t1 -> reg_ok t3 -> rc_ok j (flat2 rcs) ->
  sv_is (ks192_save t1 t3 rcs st) st (snd (v192 t1 t3 rcs)) (fst (v192 t1 t3 rcs)).
Proof.
  induction rcs as [|[ra rb] rcs IH]; intros j t1 t3 st H1 H3 Hrc; cbn [ks192_save v192]; [apply sret_is|].
  cbn [flat2 flat_map fst snd app] in Hrc.
  apply rc_ok_cons in Hrc as (Hj & Hlt & Hrc). apply rc_ok_cons in Hrc as (Hj' & Hlt' & Hrc).
  destruct (KEY_192_ASSIST t1 (aeskeygenassist t3 ra) t3) as [u1 u3] eqn:Eu.
  destruct (reg_ke192 t1 (aeskeygenassist t3 ra) t3 H1 (reg_assist _ _ H3 Hlt) H3) as [Hu1 Hu3].
  rewrite Eu in Hu1, Hu3. cbn [fst snd] in *.
  destruct (KEY_192_ASSIST u1 (aeskeygenassist u3 rb) u3) as [w1 w3] eqn:Ew.
  destruct (reg_ke192 u1 (aeskeygenassist u3 rb) u3 Hu1 (reg_assist _ _ Hu3 Hlt') Hu3) as [Hw1 Hw3].
  rewrite Ew in Hw1, Hw3. cbn [fst snd] in *.
  pose proof (fun st => IH (S (S j)) w1 w3 st Hw1 Hw3 Hrc) as IH'.
  destruct (v192 w1 w3 rcs) as [ks out]. cbn [fst snd] in *.
  eapply sbind_is; [apply save_KS_192_is; apply H3|].
  eapply sbind_is; [apply save_KS_192_is; apply Hu3|].
  apply sv_app_nil. eapply sbind_is; [apply IH'|]. apply sret_is.
Qed.
Lemma ks256_save_is rcs : forall j t1 t3 st, reg_ok t1 -> reg_ok t3 -> rc_ok j (rcs ++ [0x40]) ->
  sv_is (ks256_save t1 t3 rcs st) st (snd (v256 t1 t3 rcs)) (fst (v256 t1 t3 rcs)).
Proof.
  induction rcs as [|rc rcs IH]; intros j t1 t3 st H1 H3 Hrc; cbn [ks256_save v256].
  - apply sv_app_nil. eapply sbind_is; [apply save_KS_is; apply H3|]. apply sret_is.
  - cbn [app] in Hrc. apply rc_ok_cons in Hrc as (Hj & Hlt & Hrc).
    set (u1 := KEY_256_ASSIST_1 t1 (aeskeygenassist t3 rc)).
    assert (Hu1 : reg_ok u1) by (apply reg_ke256a; [assumption|apply reg_assist; assumption]).
    set (u3 := KEY_256_ASSIST_2 (aeskeygenassist u1 0) t3).
    assert (Hu3 : reg_ok u3) by (apply reg_ke256b; [apply reg_assist; [assumption|reflexivity]|assumption]).
    pose proof (fun st => IH (S j) u1 u3 st Hu1 Hu3 Hrc) as IH'.
    destruct (v256 u1 u3 rcs) as [ks out]. cbn [fst snd] in *.
    eapply sbind_is; [apply save_KS_is; apply H3|].
    eapply sbind_is; [apply save_KS_256_is; apply Hu1|].
    apply sv_app_nil. eapply sbind_is; [apply IH'|]. apply sret_is.
Qed.

(** rounds *)
Lemma reg_round a k : reg_ok a -> reg_ok k -> reg_ok (aesenc a k).
Proof.
  intros Ha Hk. unfold aesenc, xor128. apply reg_xor; [|assumption].
  assert (Q : reg_ok (map sbox (shuffle_epi8 a sr_idx))).
  { apply reg_map; [intros; apply sbox_lt|]. apply reg_shuffle_epi8; [reflexivity|assumption]. }
  apply reg_columns_mc; [apply Q|exact Q].
Qed.
Lemma reg_last a k : reg_ok a -> reg_ok k -> reg_ok (aesenclast a k).
Proof.
  intros Ha Hk. unfold aesenclast, xor128. apply reg_xor; [|assumption].
  apply reg_map; [intros; apply sbox_lt|]. apply reg_shuffle_epi8; [reflexivity|assumption].
Qed.

Section Rounds.
Variables (nk : nat) (key pt : bytes).
Let rk := round_key nk key.
Let sa := state_after nk key pt.
Hypothesis Hpt : reg_ok pt.
Hypothesis Hrk : forall i, (i <= nr_of nk)%nat -> reg_ok (rk i).

Lemma state_ok i : (i <= nr_of nk)%nat -> reg_ok (sa i).
Proof.
  induction i; intros Hi; unfold sa; cbn [state_after].
  - unfold add_round_key. rewrite xor_bytes_xorl. apply reg_xor; [assumption|apply Hrk; assumption].
  - fold (sa i). rewrite <- aesenc_round by (apply IHi; lia).
    apply reg_round; [apply IHi; lia|apply Hrk; assumption].
Qed.

Lemma rounds_save_is n : forall i st, (0 < n)%nat -> (i + n = nr_of nk)%nat ->
  sv_is (enc_rounds_save (sa i) (map rk (seq (S i) n)) st) st (flat_map rows (map sa (seq i n))) (cipher nk key pt).
Proof.
  induction n as [|n IH]; intros i st Hn Hi; [lia|].
  cbn [seq map enc_rounds_save flat_map].
  eapply sbind_is; [apply save_state_is; apply state_ok; lia|].
  destruct n as [|n].
  - cbn [seq map flat_map].
    replace (aesenclast (sa i) (rk (S i))) with (cipher nk key pt); [apply sret_is|].
    rewrite aesenclast_round by (apply state_ok; lia). unfold cipher.
    replace (nr_of nk) with (S i) by lia. cbn [Nat.sub]. rewrite Nat.sub_0_r. reflexivity.
  - specialize (IH (S i) (ext st (rows (sa i)))).
    assert (E : aesenc (sa i) (rk (S i)) = sa (S i)) by (apply aesenc_round; apply state_ok; lia).
    cbn [seq map] in IH |- *. rewrite E. apply IH; lia.
Qed.
Lemma encrypt_save_is st : (0 < nr_of nk)%nat ->
  sv_is (encrypt_save (map rk (seq 0 (S (nr_of nk)))) pt st) st
        (flat_map rows (map sa (seq 0 (nr_of nk)))) (cipher nk key pt).
Proof.
  intros H. cbn [seq map encrypt_save].
  assert (E : xor128 pt (rk 0) = sa 0%nat).
  { unfold sa. cbn [state_after]. unfold add_round_key. rewrite xor_bytes_xorl. reflexivity. }
  rewrite E. apply rounds_save_is; lia.
Qed.
Lemma cipher_ok : (0 < nr_of nk)%nat -> reg_ok (cipher nk key pt).
Proof.
  intros H. unfold cipher. rewrite <- aesenclast_round by (apply state_ok; lia).
  apply reg_last; [apply state_ok; lia|apply Hrk; lia].
Qed.
End Rounds.

(** ** the plain evaluation is the recording one without the record *)
Definition same {A} (x : sv A) (y : option A) : Prop := snd x = y.
Lemma sbind_same {A B} (x : sv A) y (f : saved -> A -> sv B) g :
  same x y -> (forall st a, same (f st a) (g a)) -> same (sbind x f) (obind y g).
Proof. unfold same. destruct x as [st [a|]]; cbn; intros <- H; cbn; auto. Qed.
Lemma save_bytes_chk {B} m idx l st (f : saved -> unit -> sv B) (k : option B) :
  has_zero (map (extract_epi8 m) idx) = has_zero l ->
  (forall st, same (f st tt) k) -> same (sbind (save_bytes m idx st) f) (check_zeros l k).
Proof.
  intros H Hf. pose proof (save_bytes_is m idx st) as S. unfold sv_is in S. unfold check_zeros. rewrite <- H.
  destruct (has_zero (map (extract_epi8 m) idx)).
  - destruct S as [S _]. destruct (save_bytes m idx st) as [s [u|]]; [discriminate|]. reflexivity.
  - rewrite S. cbn. apply Hf.
Qed.
Lemma idx_zero3 m : length m = 16%nat -> has_zero (map (extract_epi8 m) [13;14;15;12]%nat) = has_zero (dword m 3).
Proof. intros H. dlist m H. apply has_zero_perm. intros. cbn. tauto. Qed.
Lemma idx_zero3' m : length m = 16%nat -> has_zero (map (extract_epi8 m) [12;13;14;15]%nat) = has_zero (dword m 3).
Proof. intros H. dlist m H. reflexivity. Qed.
Lemma idx_zero1 m : length m = 16%nat -> has_zero (map (extract_epi8 m) [5;6;7;4]%nat) = has_zero (dword m 1).
Proof. intros H. dlist m H. apply has_zero_perm. intros. cbn. tauto. Qed.

Lemma ks128_same rcs : forall j key st, reg_ok key -> rc_ok j rcs -> same (ks128_save key rcs st) (ks128 key rcs).
Proof.
  induction rcs as [|rc rcs IH]; intros j key st Hk Hrc; cbn [ks128_save ks128]; [reflexivity|].
  apply rc_ok_cons in Hrc as (Hj & Hlt & Hrc).
  apply save_bytes_chk; [apply idx_zero3; apply Hk|]. intros st'.
  apply sbind_same; [|intros; reflexivity]. apply (IH (S j)); [|assumption].
  apply reg_ke128; [assumption|apply reg_assist; assumption].
Qed.
Lemma ks192_same rcs : forall j t1 t3 st, reg_ok t1 -> reg_ok t3 -> rc_ok j (flat2 rcs) ->
  same (ks192_save t1 t3 rcs st) (ks192 t1 t3 rcs).
Proof.
  induction rcs as [|[ra rb] rcs IH]; intros j t1 t3 st H1 H3 Hrc; cbn [ks192_save ks192]; [reflexivity|].
  cbn [flat2 flat_map fst snd app] in Hrc.
  apply rc_ok_cons in Hrc as (Hj & Hlt & Hrc). apply rc_ok_cons in Hrc as (Hj' & Hlt' & Hrc).
  destruct (KEY_192_ASSIST t1 (aeskeygenassist t3 ra) t3) as [u1 u3] eqn:Eu.
  destruct (reg_ke192 t1 (aeskeygenassist t3 ra) t3 H1 (reg_assist _ _ H3 Hlt) H3) as [Hu1 Hu3].
  rewrite Eu in Hu1, Hu3. cbn [fst snd] in *.
  destruct (KEY_192_ASSIST u1 (aeskeygenassist u3 rb) u3) as [w1 w3] eqn:Ew.
  destruct (reg_ke192 u1 (aeskeygenassist u3 rb) u3 Hu1 (reg_assist _ _ Hu3 Hlt') Hu3) as [Hw1 Hw3].
  rewrite Ew in Hw1, Hw3. cbn [fst snd] in *.
  apply save_bytes_chk; [apply idx_zero1; apply H3|]. intros st'.
  apply save_bytes_chk; [apply idx_zero1; apply Hu3|]. intros st''.
  apply sbind_same; [|intros; reflexivity]. apply (IH (S (S j))); assumption.
Qed.
Lemma ks256_same rcs : forall j t1 t3 st, reg_ok t1 -> reg_ok t3 -> rc_ok j (rcs ++ [0x40]) ->
  same (ks256_save t1 t3 rcs st) (ks256 t1 t3 rcs).
Proof.
  induction rcs as [|rc rcs IH]; intros j t1 t3 st H1 H3 Hrc; cbn [ks256_save ks256].
  - apply save_bytes_chk; [apply idx_zero3; apply H3|]. intros st'. reflexivity.
  - cbn [app] in Hrc. apply rc_ok_cons in Hrc as (Hj & Hlt & Hrc).
    set (u1 := KEY_256_ASSIST_1 t1 (aeskeygenassist t3 rc)).
    assert (Hu1 : reg_ok u1) by (apply reg_ke256a; [assumption|apply reg_assist; assumption]).
    set (u3 := KEY_256_ASSIST_2 (aeskeygenassist u1 0) t3).
    assert (Hu3 : reg_ok u3) by (apply reg_ke256b; [apply reg_assist; [assumption|reflexivity]|assumption]).
    apply save_bytes_chk; [apply idx_zero3; apply H3|]. intros st'.
    apply save_bytes_chk; [apply idx_zero3'; apply Hu1|]. intros st''.
    apply sbind_same; [|intros; reflexivity]. apply (IH (S j)); assumption.
Qed.
Lemma rounds_same ks : forall m st, same (enc_rounds_save m ks st) (enc_rounds m ks).
Proof.
  induction ks as [|k ks IH]; intros m st; cbn [enc_rounds_save enc_rounds];
    unfold save_state, check_for_zeros, check_zeros; destruct (has_zero m); try reflexivity.
  cbn [sbind sret]. destruct ks as [|k' ks]; [reflexivity|]. apply IH.
Qed.
Lemma encrypt_same ks pt st : same (encrypt_save ks pt st) (encrypt ks pt).
Proof. destruct ks; [reflexivity|]. apply rounds_same. Qed.

(** ** summary: recording evaluations *)
Lemma round_key_ok nk key L : all_words nk key = flat_map (words 4) L -> Forall reg_ok L ->
  forall i, (i < length L)%nat -> reg_ok (round_key nk key i).
Proof.
  intros E F i Hi. unfold round_key. rewrite E, round_keys_of by assumption.
  apply Forall_forall with (x := nth i L []) in F; [assumption|]. apply nth_In. assumption.
Qed.

Definition rk_ok (nk : nat) (key : bytes) : Prop := forall i, (i <= nr_of nk)%nat -> reg_ok (round_key nk key i).

Lemma keys_128 key : reg_ok key ->
  rk_ok 4 key /\ fst (v128 key rcons128) = map (round_key 4 key) (seq 0 11).
Proof.
  intros H. destruct (v128_ok rcons128 1 key H rc_ok_128) as [L F].
  change (S (length rcons128)) with 11%nat in L.
  pose proof (all_words_128 key H) as E. split.
  - intros i Hi. change (nr_of 4) with 10%nat in Hi. refine (round_key_ok 4 key _ E F i _). refine (eq_ind_r (fun n => i < n)%nat _ L). lia.
  - refine (eq_ind _ (fun n => _ = map _ (seq 0 n)) _ _ L). apply round_keys; assumption.
Qed.
Lemma keys_192 key : length key = 24%nat -> is_bytes key ->
  rk_ok 6 key /\ fst (v192 (lo192 key) (hi192 key) rcons192) = map (round_key 6 key) (seq 0 13).
Proof.
  intros H Hb. destruct (reg_192 key H Hb) as [H1 H3].
  destruct (v192_ok rcons192 1 _ _ H1 H3 rc_ok_192) as [L F].
  change (3 * length rcons192 + 1)%nat with 13%nat in L.
  pose proof (all_words_192 key H Hb) as E. split.
  - intros i Hi. change (nr_of 6) with 12%nat in Hi. refine (round_key_ok 6 key _ E F i _). refine (eq_ind_r (fun n => i < n)%nat _ L). lia.
  - refine (eq_ind _ (fun n => _ = map _ (seq 0 n)) _ _ L). apply round_keys; assumption.
Qed.
Lemma keys_256 key : length key = 32%nat -> is_bytes key ->
  rk_ok 8 key /\ fst (v256 (firstn 16 key) (skipn 16 key) rcons256) = map (round_key 8 key) (seq 0 15).
Proof.
  intros H Hb. destruct (reg_256 key H Hb) as [H1 H3].
  destruct (v256_ok rcons256 1 _ _ H1 H3 rc_ok_256) as [L F].
  change (2 * length rcons256 + 3)%nat with 15%nat in L.
  pose proof (all_words_256 key H Hb) as E. split.
  - intros i Hi. change (nr_of 8) with 14%nat in Hi. refine (round_key_ok 8 key _ E F i _). refine (eq_ind_r (fun n => i < n)%nat _ L). lia.
  - refine (eq_ind _ (fun n => _ = map _ (seq 0 n)) _ _ L). apply round_keys; assumption.
Qed.

Lemma save_128_is key pt : reg_ok key -> reg_ok pt ->
  sv_is (aes_128_with_sbox_output key pt) ([], []) (sbox_trace 4 key [pt]) (cipher 4 key pt).
Proof.
  intros Hk Hp. destruct (keys_128 key Hk) as [R E].
  unfold aes_128_with_sbox_output, aes_128_save, sbox_trace. rewrite key_inputs_128 by assumption.
  eapply sbind_is; [apply (ks128_save_is rcons128 1); [assumption|apply rc_ok_128]|].
  cbn [flat_map]. rewrite app_nil_r, E. apply (encrypt_save_is 4); [assumption|exact R|cbv; lia].
Qed.
Lemma blocks_save_is nk key pt st : rk_ok nk key -> length pt = 32%nat -> is_bytes pt -> (0 < nr_of nk)%nat ->
  sv_is (blocks_save (map (round_key nk key) (seq 0 (S (nr_of nk)))) pt st) st
    (flat_map (fun pt => flat_map rows (map (state_after nk key pt) (seq 0 (nr_of nk)))) [firstn 16 pt; skipn 16 pt])
    (cipher nk key (firstn 16 pt) ++ cipher nk key (skipn 16 pt)).
Proof.
  intros R L B Hn. destruct (reg_256 pt L B) as [P1 P2]. unfold blocks_save. cbn [flat_map].
  eapply sbind_is; [apply encrypt_save_is; assumption|].
  eapply sbind_is; [apply encrypt_save_is; assumption|]. apply sret_is.
Qed.
Lemma save_192_is key pt : length key = 24%nat -> is_bytes key -> length pt = 32%nat -> is_bytes pt ->
  sv_is (aes_192_with_sbox_output key pt) ([], []) (sbox_trace 6 key [firstn 16 pt; skipn 16 pt])
        (cipher 6 key (firstn 16 pt) ++ cipher 6 key (skipn 16 pt)).
Proof.
  intros Lk Bk Lp Bp. destruct (keys_192 key Lk Bk) as [R E]. destruct (reg_192 key Lk Bk) as [H1 H3].
  unfold aes_192_with_sbox_output, aes_192_save, sbox_trace. rewrite key_inputs_192 by assumption.
  fold (lo192 key) (hi192 key).
  eapply sbind_is; [apply (ks192_save_is rcons192 1); [assumption..|apply rc_ok_192]|].
  rewrite E. apply (blocks_save_is 6); [assumption..|cbv; lia].
Qed.
Lemma save_256_is key pt : length key = 32%nat -> is_bytes key -> length pt = 32%nat -> is_bytes pt ->
  sv_is (aes_256_with_sbox_output key pt) ([], []) (sbox_trace 8 key [firstn 16 pt; skipn 16 pt])
        (cipher 8 key (firstn 16 pt) ++ cipher 8 key (skipn 16 pt)).
Proof.
  intros Lk Bk Lp Bp. destruct (keys_256 key Lk Bk) as [R E]. destruct (reg_256 key Lk Bk) as [H1 H3].
  unfold aes_256_with_sbox_output, aes_256_save, sbox_trace. rewrite key_inputs_256 by assumption.
  eapply sbind_is; [apply (ks256_save_is rcons256 1); [assumption..|apply rc_ok_256]|].
  rewrite E. apply (blocks_save_is 8); [assumption..|cbv; lia].
Qed.

(** plain = snd of recording *)
Lemma aes_128_same key pt : reg_ok key -> aes_128 key pt = snd (aes_128_with_sbox_output key pt).
Proof.
  intros Hk. symmetry. unfold aes_128, aes_128_aesni, aes_128_with_sbox_output, aes_128_save.
  apply sbind_same; [apply (ks128_same rcons128 1); [assumption|apply rc_ok_128]|].
  intros. apply encrypt_same.
Qed.
Lemma two_blocks_same (ks : option (list reg)) (x : sv (list reg)) pt : same x ks ->
  snd (sbind x (fun st ks => blocks_save ks pt st)) =
  match obind ks (fun ks => encrypt ks (firstn 16 pt)), obind ks (fun ks => encrypt ks (skipn 16 pt)) with
  | Some c1, Some c2 => Some (c1 ++ c2) | _, _ => None end.
Proof.
  unfold same. destruct x as [st o]. cbn [snd]. intros ->. destruct ks as [ks|]; [|reflexivity].
  cbn [sbind obind]. unfold blocks_save.
  pose proof (encrypt_same ks (firstn 16 pt) st) as S1. unfold same in S1.
  destruct (encrypt_save ks (firstn 16 pt) st) as [st1 [c1|]]; cbn [snd sbind] in *; rewrite <- S1; [|reflexivity].
  pose proof (encrypt_same ks (skipn 16 pt) st1) as S2. unfold same in S2.
  destruct (encrypt_save ks (skipn 16 pt) st1) as [st2 [c2|]]; cbn [snd sbind] in *; rewrite <- S2; reflexivity.
Qed.
Lemma aes_192_same key pt : length key = 24%nat -> is_bytes key -> aes_192 key pt = snd (aes_192_with_sbox_output key pt).
Proof.
  intros Lk Bk. destruct (reg_192 key Lk Bk) as [H1 H3].
  unfold aes_192_with_sbox_output, aes_192_save.
  rewrite (two_blocks_same (ks192 (lo192 key) (hi192 key) rcons192));
    [reflexivity|apply (ks192_same rcons192 1); [assumption..|apply rc_ok_192]].
Qed.
Lemma aes_256_same key pt : length key = 32%nat -> is_bytes key -> aes_256 key pt = snd (aes_256_with_sbox_output key pt).
Proof.
  intros Lk Bk. destruct (reg_256 key Lk Bk) as [H1 H3].
  unfold aes_256_with_sbox_output, aes_256_save.
  rewrite (two_blocks_same (ks256 (firstn 16 key) (skipn 16 key) rcons256));
    [reflexivity|apply (ks256_same rcons256 1); [assumption..|apply rc_ok_256]].
Qed.
Lemma sv_is_snd {A} (x : sv A) st l r : sv_is x st l r -> snd x = if has_zero l then None else Some r.
Proof. unfold sv_is. destruct (has_zero l); [intros [H _]; exact H|intros ->; reflexivity]. Qed.
