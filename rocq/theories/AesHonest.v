(** The first party's evaluation with S-box outputs that are the inverses of the S-box inputs is AES. *)
From Coq Require Import Arith NArith List Bool Lia Btauto.
From Verif Require Import Prelude Clmul Gf8 AesSpec AesModel AesBase AesKs AesPlain AesApi AesMpc AesLin.
Import ListNotations.
Local Open Scope N_scope.

(** [t] starts with the inverses of [o] *)
Definition agree (t o : bytes) : Prop := firstn (length o) t = map inverse o.
Lemma agree_app t a b : agree t (a ++ b) -> agree t a /\ agree (skipn (length a) t) b.
Proof.
  unfold agree. rewrite app_length, map_app. intros H.
  assert (E : firstn (length a) t = map inverse a).
  { apply (f_equal (firstn (length a))) in H.
    rewrite firstn_firstn, Nat.min_l in H by lia. rewrite H.
    rewrite firstn_app, map_length, Nat.sub_diag, firstn_O, app_nil_r. apply firstn_all2. rewrite map_length. lia. }
  split; [assumption|].
  apply (f_equal (skipn (length a))) in H. rewrite skipn_app, map_length, Nat.sub_diag, skipn_O in H.
  rewrite (skipn_all2 (map inverse a)) in H by (rewrite map_length; lia). cbn [app] in H. rewrite <- H.
  rewrite firstn_skipn_comm. reflexivity.
Qed.

Lemma kg_inv rc w : is_bytes w -> kg AFFINE_CONST rc (map inverse w) = xor_rcon (map sbox w) rc.
Proof.
  intros H. unfold kg. destruct H as [|x w Hx H]; [reflexivity|]. cbn [map xor_rcon].
  rewrite sbox_of_inverse by assumption. f_equal.
  induction H; cbn [map]; [reflexivity|]. rewrite sbox_of_inverse by assumption. f_equal. assumption.
Qed.
Lemma rot_sub w : map sbox (rotword w) = rotword (map sbox w).
Proof. destruct w; [reflexivity|]. cbn [rotword map]. rewrite map_app. reflexivity. Qed.
Lemma place_dword12 w : length w = 4%nat -> dword (place 12 w) 3 = w.
Proof. intros H. dlist w H. reflexivity. Qed.
Lemma place_dword4 w : length w = 4%nat -> dword (place 4 w) 1 = w.
Proof. intros H. dlist w H. reflexivity. Qed.
Lemma place_dword8 w : length w = 4%nat -> dword (place 8 w) 2 = w.
Proof. intros H. dlist w H. reflexivity. Qed.
Lemma assist_dwords m rc : length m = 16%nat ->
  dword (aeskeygenassist m rc) 1 = xor_rcon (rotword (map sbox (dword m 1))) rc /\
  dword (aeskeygenassist m rc) 2 = map sbox (dword m 3) /\
  dword (aeskeygenassist m rc) 3 = xor_rcon (rotword (map sbox (dword m 3))) rc.
Proof.
  intros H. dlist m H. unfold aeskeygenassist, subword. cbn [dword slice firstn skipn Nat.mul Nat.add map].
  generalize (sbox x3) (sbox x4) (sbox x5) (sbox x6) (sbox x11) (sbox x12) (sbox x13) (sbox x14). intros. auto.
Qed.
Lemma ke128_dep k g g' : dword g 3 = dword g' 3 -> aes_128_key_expansion k g = aes_128_key_expansion k g'.
Proof. intros E. unfold aes_128_key_expansion, shuffle_all. rewrite E. reflexivity. Qed.
Lemma ke192_dep a c g g' : dword g 1 = dword g' 1 -> KEY_192_ASSIST a g c = KEY_192_ASSIST a g' c.
Proof.
  intros E. assert (S : shuffle_all g 1 = shuffle_all g' 1) by (unfold shuffle_all; rewrite E; reflexivity).
  unfold KEY_192_ASSIST. rewrite S. reflexivity.
Qed.
Lemma ke256a_dep k g g' : dword g 3 = dword g' 3 -> KEY_256_ASSIST_1 k g = KEY_256_ASSIST_1 k g'.
Proof. intros E. unfold KEY_256_ASSIST_1, shuffle_all. rewrite E. reflexivity. Qed.
Lemma ke256b_dep k g g' : dword g 2 = dword g' 2 -> KEY_256_ASSIST_2 g k = KEY_256_ASSIST_2 g' k.
Proof. intros E. unfold KEY_256_ASSIST_2, shuffle_all. rewrite E. reflexivity. Qed.
Lemma xor_rcon_length w rc : length (xor_rcon w rc) = length w.
Proof. destruct w; reflexivity. Qed.
Lemma xor_rcon_0 w : xor_rcon w 0 = w.
Proof. destruct w; [reflexivity|]. cbn. rewrite N.lxor_0_r. reflexivity. Qed.

Lemma kg_rot rc m i t : reg_ok m -> (i < 4)%nat -> agree t (rotword (dword m i)) ->
  kg AFFINE_CONST rc (firstn 4 t) = xor_rcon (rotword (map sbox (dword m i))) rc.
Proof.
  intros H Hi A. destruct (rot_ok m i H Hi) as [L B]. unfold agree in A. rewrite L in A. rewrite A, kg_inv by assumption.
  rewrite rot_sub. reflexivity.
Qed.
Lemma kg_rot_len rc m i : reg_ok m -> (i < 4)%nat -> length (xor_rcon (rotword (map sbox (dword m i))) rc) = 4%nat.
Proof. intros. rewrite xor_rcon_length, rotword_length, map_length. apply dword_length; [apply H|assumption]. Qed.
Lemma restore_128 key rc t : reg_ok key -> agree t (rotword (dword key 3)) ->
  aes_128_key_expansion key (place 12 (kg (aff true) (rc_of true rc) (firstn 4 t))) =
  aes_128_key_expansion key (aeskeygenassist key rc).
Proof.
  intros H A. apply ke128_dep. cbn [aff rc_of]. rewrite (kg_rot rc key 3 t H) by (assumption || lia).
  rewrite place_dword12 by (apply kg_rot_len; (assumption || lia)). symmetry. apply assist_dwords. apply H.
Qed.
Lemma restore_192 a m rc t : reg_ok m -> agree t (rotword (dword m 1)) ->
  KEY_192_ASSIST a (place 4 (kg (aff true) (rc_of true rc) (firstn 4 t))) m = KEY_192_ASSIST a (aeskeygenassist m rc) m.
Proof.
  intros H A. apply ke192_dep. cbn [aff rc_of]. rewrite (kg_rot rc m 1 t H) by (assumption || lia).
  rewrite place_dword4 by (apply kg_rot_len; (assumption || lia)). symmetry. apply assist_dwords. apply H.
Qed.
Lemma restore_256a a m rc t : reg_ok m -> agree t (rotword (dword m 3)) ->
  KEY_256_ASSIST_1 a (place 12 (kg (aff true) (rc_of true rc) (firstn 4 t))) = KEY_256_ASSIST_1 a (aeskeygenassist m rc).
Proof.
  intros H A. apply ke256a_dep. cbn [aff rc_of]. rewrite (kg_rot rc m 3 t H) by (assumption || lia).
  rewrite place_dword12 by (apply kg_rot_len; (assumption || lia)). symmetry. apply assist_dwords. apply H.
Qed.
Lemma restore_256b c m t : reg_ok m -> agree t (dword m 3) ->
  KEY_256_ASSIST_2 (place 8 (kg (aff true) 0 (firstn 4 t))) c = KEY_256_ASSIST_2 (aeskeygenassist m 0) c.
Proof.
  intros H A. apply ke256b_dep. cbn [aff]. destruct (word_ok m 3 H) as [L B]; [lia|].
  unfold agree in A. rewrite L in A. rewrite A, kg_inv, xor_rcon_0 by assumption.
  rewrite place_dword8 by (rewrite map_length; assumption). symmetry. apply assist_dwords. apply H.
Qed.

Lemma p128_honest rcs : forall key t, reg_ok key -> Forall (fun r => r < 256) rcs ->
  (agree t (snd (p128 true key rcs t)) \/ agree t (snd (v128 key rcs))) -> p128 true key rcs t = v128 key rcs.
Proof.
  induction rcs as [|rc rcs IH]; intros key t Hk Hr A; cbn [p128 v128] in *; [reflexivity|].
  inversion Hr; subst. destruct (rot_ok key 3 Hk) as [L _]; [lia|].
  assert (A1 : agree t (rotword (dword key 3))).
  { destruct (p128 true _ rcs (skipn 4 t)) as [? ?], (v128 _ rcs) as [? ?]. cbn [snd] in A.
    destruct A as [A|A]; apply agree_app in A; apply A. }
  rewrite restore_128 in * by assumption.
  rewrite IH; [reflexivity|apply reg_ke128; [assumption|apply reg_assist; assumption]|assumption|].
  destruct (p128 true (aes_128_key_expansion key (aeskeygenassist key rc)) rcs (skipn 4 t)) as [? ?],
    (v128 (aes_128_key_expansion key (aeskeygenassist key rc)) rcs) as [? ?]. cbn [snd] in *.
  destruct A as [A|A]; apply agree_app in A as [_ A]; rewrite L in A; auto.
Qed.
Lemma p192_honest rcs : forall a c t, reg_ok a -> reg_ok c -> Forall (fun r => fst r < 256 /\ snd r < 256) rcs ->
  (agree t (snd (p192 true a c rcs t)) \/ agree t (snd (v192 a c rcs))) -> p192 true a c rcs t = v192 a c rcs.
Proof.
  induction rcs as [|[ra rb] rcs IH]; intros a c t Ha Hc Hr A; cbn [p192 v192] in *; [reflexivity|].
  inversion Hr as [|? ? [Ra Rb] Hr']; subst. cbn [fst snd] in Ra, Rb.
  destruct (rot_ok c 1 Hc) as [L _]; [lia|].
  assert (A1 : agree t (rotword (dword c 1))).
  { destruct (KEY_192_ASSIST a (place 4 _) c) as [? ?], (KEY_192_ASSIST a (aeskeygenassist c ra) c) as [? ?].
    destruct (KEY_192_ASSIST _ (place 4 _) _) as [? ?], (KEY_192_ASSIST _ (aeskeygenassist _ rb) _) as [? ?].
    destruct (p192 true _ _ rcs _) as [? ?], (v192 _ _ rcs) as [? ?]. cbn [snd] in A.
    destruct A as [A|A]; apply agree_app in A; apply A. }
  rewrite restore_192 in * by assumption.
  pose proof (reg_ke192 a _ c Ha (reg_assist c ra Hc Ra) Hc) as [U1 U3].
  destruct (KEY_192_ASSIST a (aeskeygenassist c ra) c) as [u1 u3]. cbn [fst snd] in U1, U3.
  destruct (rot_ok u3 1 U3) as [L3 _]; [lia|].
  assert (A2 : agree (skipn 4 t) (rotword (dword u3 1))).
  { destruct (KEY_192_ASSIST _ (place 4 _) _) as [? ?], (KEY_192_ASSIST _ (aeskeygenassist _ rb) _) as [? ?].
    destruct (p192 true _ _ rcs _) as [? ?], (v192 _ _ rcs) as [? ?]. cbn [snd] in A.
    destruct A as [A|A]; apply agree_app in A as [_ A]; rewrite L in A; apply agree_app in A; apply A. }
  rewrite restore_192 in * by assumption.
  pose proof (reg_ke192 u1 _ u3 U1 (reg_assist u3 rb U3 Rb) U3) as [W1 W3].
  destruct (KEY_192_ASSIST u1 (aeskeygenassist u3 rb) u3) as [w1 w3]. cbn [fst snd] in W1, W3.
  rewrite IH; [reflexivity|assumption..|].
  destruct (p192 true w1 w3 rcs (skipn 4 (skipn 4 t))) as [? ?], (v192 w1 w3 rcs) as [? ?]. cbn [snd] in *.
  destruct A as [A|A]; apply agree_app in A as [_ A]; rewrite L in A; apply agree_app in A as [_ A]; rewrite L3 in A; auto.
Qed.
Lemma p256_honest rcs : forall a c t, reg_ok a -> reg_ok c -> Forall (fun r => r < 256) rcs ->
  (agree t (snd (p256 true a c rcs t)) \/ agree t (snd (v256 a c rcs))) -> p256 true a c rcs t = v256 a c rcs.
Proof.
  induction rcs as [|ra rcs IH]; intros a c t Ha Hc Hr A; cbn [p256 v256] in *.
  - cbn [snd] in A. rewrite (restore_256a a c) by (assumption || (destruct A; assumption)). reflexivity.
  - inversion Hr as [|? ? Ra Hr']; subst.
    destruct (rot_ok c 3 Hc) as [L _]; [lia|].
    assert (A1 : agree t (rotword (dword c 3))).
    { destruct (p256 true _ _ rcs _) as [? ?], (v256 _ _ rcs) as [? ?]. cbn [snd] in A.
      destruct A as [A|A]; apply agree_app in A; apply A. }
    rewrite (restore_256a a c ra t Hc A1) in *.
    pose proof (reg_ke256a a _ Ha (reg_assist c ra Hc Ra)) as U1.
    set (u1 := KEY_256_ASSIST_1 a (aeskeygenassist c ra)) in *.
    destruct (word_ok u1 3 U1) as [L3 _]; [lia|].
    assert (A2 : agree (skipn 4 t) (dword u1 3)).
    { destruct (p256 true _ _ rcs _) as [? ?], (v256 _ _ rcs) as [? ?]. cbn [snd] in A.
      destruct A as [A|A]; apply agree_app in A as [_ A]; rewrite L in A; apply agree_app in A; apply A. }
    rewrite (restore_256b c u1 _ U1 A2) in *.
    assert (Z : 0 < 256) by reflexivity.
    pose proof (reg_ke256b _ c (reg_assist u1 0 U1 Z) Hc) as U3.
    set (u3 := KEY_256_ASSIST_2 (aeskeygenassist u1 0) c) in *.
    rewrite IH; [reflexivity|assumption..|].
    destruct (p256 true u1 u3 rcs (skipn 4 (skipn 4 t))) as [? ?], (v256 u1 u3 rcs) as [? ?]. cbn [snd] in *.
    destruct A as [A|A]; apply agree_app in A as [_ A]; rewrite L in A; apply agree_app in A as [_ A]; rewrite L3 in A; auto.
Qed.

(** ** rounds *)
Fixpoint vrounds (m : reg) (ks : list reg) : reg * bytes :=
  match ks with
  | [] => (m, [])
  | [k] => (aesenclast m k, rows m)
  | k :: ks' => let '(c, out) := vrounds (aesenc m k) ks' in (c, rows m ++ out)
  end.
Lemma Rt_honest m t : reg_ok m -> agree t (rows m) -> Rt true (firstn 16 t) = map sbox (shuffle_epi8 m sr_idx).
Proof.
  intros [L B] A. unfold agree in A. rewrite rows_length in A. rewrite A. unfold Rt.
  rewrite rows_eq. change tr_idx with s_shuf. unfold is_bytes in B. dlist m L.
  repeat match goal with H : Forall is_byte (_ :: _) |- _ => inversion H; subst; clear H end.
  unfold t_shuf, sr_idx, s_shuf, shuffle_epi8. cbn [map nth aff].
  repeat match goal with H : is_byte ?x |- _ => rewrite (sbox_of_inverse x H); clear H end. reflexivity.
Qed.
Lemma prounds_honest ks : forall m t, reg_ok m -> Forall reg_ok ks ->
  (agree t (snd (prounds true m ks t)) \/ agree t (snd (vrounds m ks))) -> prounds true m ks t = vrounds m ks.
Proof.
  induction ks as [|k ks IH]; intros m t Hm Hk A; [reflexivity|]. inversion Hk; subst.
  destruct ks as [|k1 ks].
  - cbn [prounds vrounds snd] in *. rewrite (Rt_honest m) by (assumption || (destruct A; assumption)). reflexivity.
  - assert (U : prounds true m (k :: k1 :: ks) t =
      let '(c, out) := prounds true (xorl (aesimc (aesimc (aesimc (Rt true (firstn 16 t))))) k) (k1 :: ks) (skipn 16 t) in
      (c, rows m ++ out)) by reflexivity.
    assert (V : vrounds m (k :: k1 :: ks) = let '(c, out) := vrounds (aesenc m k) (k1 :: ks) in (c, rows m ++ out)) by reflexivity.
    rewrite U, V in *. clear U V.
    assert (A1 : agree t (rows m)).
    { destruct (prounds true _ (k1 :: ks) _) as [? ?], (vrounds _ (k1 :: ks)) as [? ?]. cbn [snd] in A.
      destruct A as [A|A]; apply agree_app in A; apply A. }
    rewrite (Rt_honest m t Hm A1) in *.
    assert (Hs : reg_ok (map sbox (shuffle_epi8 m sr_idx))).
    { apply reg_map; [intros; apply sbox_lt|apply reg_shuffle_epi8; [reflexivity|assumption]]. }
    rewrite (aesimc3 _ Hs) in *.
    change (xorl (columns (mixcol mc_byte) (map sbox (shuffle_epi8 m sr_idx))) k) with (aesenc m k) in *.
    rewrite IH; [reflexivity|apply reg_xor; [apply reg_columns_mc; [apply Hs|assumption]|assumption]|assumption|].
    destruct (prounds true (aesenc m k) (k1 :: ks) (skipn 16 t)) as [? ?], (vrounds (aesenc m k) (k1 :: ks)) as [? ?]. cbn [snd] in *.
    destruct A as [A|A]; apply agree_app in A as [_ A]; rewrite rows_length in A; auto.
Qed.

(** ** against FIPS-197 *)
Section OneBlock.
Variables (nk : nat) (key pt : bytes).
Hypothesis Hpt : reg_ok pt.
Hypothesis Hrk : rk_ok nk key.
Hypothesis Hnr : (0 < nr_of nk)%nat.
Let sa := state_after nk key pt.
Lemma vrounds_spec d : forall i, (S i + d = nr_of nk)%nat ->
  vrounds (sa i) (map (round_key nk key) (seq (S i) (S d))) = (cipher nk key pt, flat_map rows (map sa (seq i (S d)))).
Proof.
  induction d as [|d IH]; intros i Hi.
  - cbn [seq map vrounds flat_map]. rewrite app_nil_r, aesenclast_round by (apply (state_ok nk key pt Hpt Hrk); lia).
    unfold cipher. replace (nr_of nk - 1)%nat with i by lia. replace (nr_of nk) with (S i) by lia. reflexivity.
  - assert (V : vrounds (sa i) (map (round_key nk key) (seq (S i) (S (S d)))) =
      let '(c, out) := vrounds (aesenc (sa i) (round_key nk key (S i))) (map (round_key nk key) (seq (S (S i)) (S d))) in
      (c, rows (sa i) ++ out)) by reflexivity.
    rewrite V. rewrite aesenc_round by (apply (state_ok nk key pt Hpt Hrk); lia).
    change (round (sa i) (round_key nk key (S i))) with (sa (S i)).
    rewrite IH by lia. reflexivity.
Qed.
Lemma pblock_honest t : 
  let ks := map (round_key nk key) (seq 0 (S (nr_of nk))) in
  let o := flat_map rows (map sa (seq 0 (nr_of nk))) in
  (agree t (snd (pblock true pt ks t)) \/ agree t o) -> pblock true pt ks t = (cipher nk key pt, o).
Proof.
  intros ks o A.
  assert (E : vrounds (xorl pt (round_key nk key 0)) (map (round_key nk key) (seq 1 (nr_of nk))) = (cipher nk key pt, o)).
  { pose proof (vrounds_spec (nr_of nk - 1) 0) as V. replace (S (nr_of nk - 1)) with (nr_of nk) in V by lia.
    apply V. lia. }
  assert (P : pblock true pt ks t = prounds true (xorl pt (round_key nk key 0)) (map (round_key nk key) (seq 1 (nr_of nk))) t) by reflexivity.
  rewrite P in *. rewrite <- E. apply prounds_honest.
  - apply reg_xor; [assumption|apply Hrk; lia].
  - apply Forall_forall. intros k Hk. apply in_map_iff in Hk as (i & <- & Hi). apply in_seq in Hi. apply Hrk. lia.
  - rewrite E. exact A.
Qed.
End OneBlock.

Lemma agree_all t o : t = map inverse o -> agree t o.
Proof. intros ->. unfold agree. rewrite <- (map_length inverse o) at 1. apply firstn_all. Qed.

(** the first party alone, on the whole key *)
Definition consistent (t s : bytes) : Prop := t = map inverse s.
Lemma P128_honest key t pt : reg_ok key -> reg_ok pt -> length t = 200%nat ->
  (consistent t (snd (P128 true key t pt)) \/ consistent t (sbox_trace 4 key [pt])) ->
  P128 true key t pt = (cipher 4 key pt, sbox_trace 4 key [pt]).
Proof.
  intros Hk Hp Lt A. unfold P128, sbox_trace in *. rewrite key_inputs_128 in * by assumption.
  cbn [flat_map] in *. rewrite app_nil_r in *.
  assert (Hr : Forall (fun r => r < 256) rcons128) by (repeat constructor).
  destruct (keys_128 key Hk) as [R E]. destruct (v128_out rcons128 key Hk Hr) as [Lo _]. change (4 * length rcons128)%nat with 40%nat in Lo.
  assert (Ep : p128 true key rcons128 t = v128 key rcons128).
  { apply p128_honest; [assumption..|]. destruct (p128 true key rcons128 t) as [ks o].
    destruct (pblock true pt ks (skipn 40 t)) as [c o1]. cbn [snd] in *.
    destruct A as [A|A]; apply agree_all, agree_app in A; [left|right]; apply A. }
  rewrite Ep in *. destruct (v128 key rcons128) as [ks o]. cbn [fst snd] in *. subst ks.
  pose proof (pblock_honest 4 key pt Hp R ltac:(cbv; lia) (skipn 40 t)) as H. cbv zeta in H.
  change (S (nr_of 4)) with 11%nat in H. rewrite H; [reflexivity|].
  destruct (pblock true pt (map (round_key 4 key) (seq 0 11)) (skipn 40 t)) as [c o1]. cbn [snd] in *.
  destruct A as [A|A]; apply agree_all, agree_app in A as [_ A]; rewrite Lo in A; auto.
Qed.

Lemma two_honest nk key pt t o n nr : rk_ok nk key -> nr_of nk = nr -> (0 < nr)%nat -> length pt = 32%nat -> is_bytes pt -> length o = n ->
  let ks := map (round_key nk key) (seq 0 (S nr)) in
  let f pt := flat_map rows (map (state_after nk key pt) (seq 0 nr)) in
  let r0 := pblock true (firstn 16 pt) ks (skipn n t) in
  let r1 := pblock true (skipn 16 pt) ks (skipn (16 * nr) (skipn n t)) in
  (agree t (o ++ snd r0 ++ snd r1) \/ agree t (o ++ f (firstn 16 pt) ++ f (skipn 16 pt))) ->
  length (snd r0) = (16 * nr)%nat ->
  r0 = (cipher nk key (firstn 16 pt), f (firstn 16 pt)) /\ r1 = (cipher nk key (skipn 16 pt), f (skipn 16 pt)).
Proof.
  intros R En Hn Lp Bp Lo ks f r0 r1 A L0. subst nr. destruct (pt_halves pt Lp Bp) as (_ & _ & P0 & P1).
  assert (Lf : length (f (firstn 16 pt)) = (16 * nr_of nk)%nat) by (unfold f; rewrite flat_rows_length, map_length, seq_length; reflexivity).
  assert (A0 : agree (skipn n t) (snd r0) \/ agree (skipn n t) (f (firstn 16 pt))).
  { rewrite <- Lo. destruct A as [A|A]; apply agree_app in A as [_ A]; apply agree_app in A; [left|right]; apply A. }
  assert (A1 : agree (skipn (16 * nr_of nk) (skipn n t)) (snd r1) \/ agree (skipn (16 * nr_of nk) (skipn n t)) (f (skipn 16 pt))).
  { destruct A as [A|A]; apply agree_app in A as [_ A]; apply agree_app in A as [_ A]; rewrite ?L0, ?Lf, Lo in A; auto. }
  split.
  - apply (pblock_honest nk key (firstn 16 pt) P0 R Hn (skipn n t)). exact A0.
  - apply (pblock_honest nk key (skipn 16 pt) P1 R Hn (skipn (16 * nr_of nk) (skipn n t))). exact A1.
Qed.
Lemma keys_ok nk key : rk_ok nk key -> Forall reg_ok (map (round_key nk key) (seq 0 (S (nr_of nk)))).
Proof.
  intros R. apply Forall_forall. intros k Hk. apply in_map_iff in Hk as (i & <- & Hi). apply in_seq in Hi. apply R. lia.
Qed.
Lemma P192_honest key t pt : length key = 24%nat -> is_bytes key -> length pt = 32%nat -> is_bytes pt ->
  length t = 416%nat -> is_bytes t ->
  (consistent t (snd (P192 true key t pt)) \/ consistent t (sbox_trace 6 key (blocks2 pt))) ->
  P192 true key t pt = (flat_map (cipher 6 key) (blocks2 pt), sbox_trace 6 key (blocks2 pt)).
Proof.
  intros Lk Bk Lp Bp Lt Bt A. unfold P192, sbox_trace, blocks2 in *. rewrite key_inputs_192 in * by assumption.
  cbn [flat_map] in *. rewrite !app_nil_r in *.
  destruct (reg_192 key Lk Bk) as [H1 H3].
  assert (Hr : Forall (fun r => fst r < 256 /\ snd r < 256) rcons192) by (repeat constructor).
  destruct (keys_192 key Lk Bk) as [R E]. destruct (v192_out rcons192 _ _ H1 H3 Hr) as [Lo _]. change (8 * length rcons192)%nat with 32%nat in Lo.
  assert (Ep : p192 true (lo192 key) (hi192 key) rcons192 t = v192 (lo192 key) (hi192 key) rcons192).
  { apply p192_honest; [assumption..|]. destruct (p192 true _ _ rcons192 t) as [ks o].
    destruct (pblock true _ ks (skipn 32 t)) as [c0 o0]. destruct (pblock true _ ks (skipn 192 (skipn 32 t))) as [c1 o1]. cbn [snd] in *.
    destruct A as [A|A]; apply agree_all, agree_app in A; [left|right]; apply A. }
  rewrite Ep in *. destruct (v192 (lo192 key) (hi192 key) rcons192) as [ks o]. cbn [fst snd] in *. subst ks.
  destruct (pt_halves pt Lp Bp) as (_ & _ & P0 & P1).
  destruct (pblock_len true (firstn 16 pt) (map (round_key 6 key) (seq 0 13)) (skipn 32 t) 12) as [_ L0];
    [exact (keys_ok 6 key R)|reflexivity|lia|assumption|apply is_bytes_skipn; assumption|rewrite skipn_length; lia|].
  destruct (two_honest 6 key pt t o 32 12) as [E0 E1]; try assumption; try reflexivity; try lia.
  - change (seq 0 13) with (seq 0 (S 12)) in A. change 192%nat with (16 * 12)%nat in A. 
    destruct (pblock true (firstn 16 pt) _ (skipn 32 t)) as [c0 o0]. destruct (pblock true (skipn 16 pt) _ (skipn (16 * 12) (skipn 32 t))) as [c1 o1].
    cbn [snd] in *. destruct A as [A|A]; apply agree_all in A; [left|right]; exact A.
  - change (seq 0 13) with (seq 0 (S 12)). change 192%nat with (16 * 12)%nat. rewrite E0, E1. reflexivity.
Qed.
Lemma P256_honest key t pt : length key = 32%nat -> is_bytes key -> length pt = 32%nat -> is_bytes pt ->
  length t = 500%nat -> is_bytes t ->
  (consistent t (snd (P256 true key t pt)) \/ consistent t (sbox_trace 8 key (blocks2 pt))) ->
  P256 true key t pt = (flat_map (cipher 8 key) (blocks2 pt), sbox_trace 8 key (blocks2 pt)).
Proof.
  intros Lk Bk Lp Bp Lt Bt A. unfold P256, sbox_trace, blocks2 in *. rewrite key_inputs_256 in * by assumption.
  cbn [flat_map] in *. rewrite !app_nil_r in *.
  destruct (reg_256 key Lk Bk) as [H1 H3].
  assert (Hr : Forall (fun r => r < 256) rcons256) by (repeat constructor).
  destruct (keys_256 key Lk Bk) as [R E]. destruct (v256_out rcons256 _ _ H1 H3 Hr) as [Lo _]. change (8 * length rcons256 + 4)%nat with 52%nat in Lo.
  assert (Ep : p256 true (firstn 16 key) (skipn 16 key) rcons256 t = v256 (firstn 16 key) (skipn 16 key) rcons256).
  { apply p256_honest; [assumption..|]. destruct (p256 true _ _ rcons256 t) as [ks o].
    destruct (pblock true _ ks (skipn 52 t)) as [c0 o0]. destruct (pblock true _ ks (skipn 224 (skipn 52 t))) as [c1 o1]. cbn [snd] in *.
    destruct A as [A|A]; apply agree_all, agree_app in A; [left|right]; apply A. }
  rewrite Ep in *. destruct (v256 (firstn 16 key) (skipn 16 key) rcons256) as [ks o]. cbn [fst snd] in *. subst ks.
  destruct (pt_halves pt Lp Bp) as (_ & _ & P0 & P1).
  destruct (pblock_len true (firstn 16 pt) (map (round_key 8 key) (seq 0 15)) (skipn 52 t) 14) as [_ L0];
    [exact (keys_ok 8 key R)|reflexivity|lia|assumption|apply is_bytes_skipn; assumption|rewrite skipn_length; lia|].
  destruct (two_honest 8 key pt t o 52 14) as [E0 E1]; try assumption; try reflexivity; try lia.
  - change (seq 0 15) with (seq 0 (S 14)) in A. change 224%nat with (16 * 14)%nat in A. 
    destruct (pblock true (firstn 16 pt) _ (skipn 52 t)) as [c0 o0]. destruct (pblock true (skipn 16 pt) _ (skipn (16 * 14) (skipn 52 t))) as [c1 o1].
    cbn [snd] in *. destruct A as [A|A]; apply agree_all in A; [left|right]; exact A.
  - change (seq 0 15) with (seq 0 (S 14)). change 224%nat with (16 * 14)%nat. rewrite E0, E1. reflexivity.
Qed.
