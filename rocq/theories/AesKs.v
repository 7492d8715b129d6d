(** The key schedules and rounds of AesModel agree with FIPS-197. *)
From Coq Require Import Arith NArith List Bool Lia Btauto.
From Verif Require Import Prelude Clmul Gf8 AesSpec AesModel AesBase.
Import ListNotations.
Local Open Scope N_scope.

(** ** Schedules without the zero checks: round keys and S-box inputs *)
Definition rot4 (w : bytes) : bytes := rotword w.
Fixpoint v128 (key : reg) (rcs : list N) : list reg * bytes :=
  match rcs with
  | [] => ([key], [])
  | rc :: rcs' =>
    let '(ks, out) := v128 (aes_128_key_expansion key (aeskeygenassist key rc)) rcs' in
    (key :: ks, rotword (dword key 3) ++ out)
  end.
Fixpoint v192 (t1 t3 : reg) (rcs : list (N * N)) : list reg * bytes :=
  match rcs with
  | [] => ([t1], [])
  | (ra, rb) :: rcs' =>
    let '(u1, u3) := KEY_192_ASSIST t1 (aeskeygenassist t3 ra) t3 in
    let '(w1, w3) := KEY_192_ASSIST u1 (aeskeygenassist u3 rb) u3 in
    let '(ks, out) := v192 w1 w3 rcs' in
    (t1 :: shuffle_pd0 t3 u1 :: shuffle_pd1 u1 u3 :: ks,
     rotword (dword t3 1) ++ rotword (dword u3 1) ++ out)
  end.
Fixpoint v256 (t1 t3 : reg) (rcs : list N) : list reg * bytes :=
  match rcs with
  | [] => ([t1; t3; KEY_256_ASSIST_1 t1 (aeskeygenassist t3 0x40)], rotword (dword t3 3))
  | rc :: rcs' =>
    let u1 := KEY_256_ASSIST_1 t1 (aeskeygenassist t3 rc) in
    let u3 := KEY_256_ASSIST_2 (aeskeygenassist u1 0) t3 in
    let '(ks, out) := v256 u1 u3 rcs' in
    (t1 :: t3 :: ks, rotword (dword t3 3) ++ dword u1 3 ++ out)
  end.

(** ** One step, in words *)
Lemma words4 a : length a = 16%nat -> words 4 a = [dword a 0; dword a 1; dword a 2; dword a 3].
Proof. intros H. dlist a H. reflexivity. Qed.

Ltac dregs := repeat match goal with
  | H : length ?a = 16%nat |- _ => dlist a H; clear H
  end.
Ltac gen_sbox := repeat match goal with |- context [sbox ?x] => generalize (sbox x); intro end.
Ltac words_solve := cbn -[sbox N.lxor]; gen_sbox; repeat (apply (f_equal2 (@cons (list N))); [lcons; xor_solve|]); reflexivity.

Lemma step128 key rc : length key = 16%nat ->
  let w0 := dword key 0 in let w1 := dword key 1 in let w2 := dword key 2 in let w3 := dword key 3 in
  let u0 := xorl w0 (xorl (sub_word (rot_word w3)) [rc;0;0;0]) in
  let u1 := xorl w1 u0 in let u2 := xorl w2 u1 in let u3 := xorl w3 u2 in
  words 4 (aes_128_key_expansion key (aeskeygenassist key rc)) = [u0; u1; u2; u3].
Proof. intros H. dregs. words_solve. Qed.

Lemma step192 t1 t3 rc : length t1 = 16%nat -> length t3 = 16%nat ->
  let w0 := dword t1 0 in let w1 := dword t1 1 in let w2 := dword t1 2 in let w3 := dword t1 3 in
  let w4 := dword t3 0 in let w5 := dword t3 1 in
  let u0 := xorl w0 (xorl (sub_word (rot_word w5)) [rc;0;0;0]) in
  let u1 := xorl w1 u0 in let u2 := xorl w2 u1 in let u3 := xorl w3 u2 in
  let u4 := xorl w4 u3 in let u5 := xorl w5 u4 in
  let r := KEY_192_ASSIST t1 (aeskeygenassist t3 rc) t3 in
  words 4 (fst r) ++ words 2 (snd r) = [u0; u1; u2; u3; u4; u5].
Proof. intros H H'. dregs. words_solve. Qed.

Lemma step256a t1 t3 rc : length t1 = 16%nat -> length t3 = 16%nat ->
  let w0 := dword t1 0 in let w1 := dword t1 1 in let w2 := dword t1 2 in let w3 := dword t1 3 in
  let u0 := xorl w0 (xorl (sub_word (rot_word (dword t3 3))) [rc;0;0;0]) in
  let u1 := xorl w1 u0 in let u2 := xorl w2 u1 in let u3 := xorl w3 u2 in
  words 4 (KEY_256_ASSIST_1 t1 (aeskeygenassist t3 rc)) = [u0; u1; u2; u3].
Proof. intros H H'. dregs. words_solve. Qed.

Lemma step256b u1 t3 : length u1 = 16%nat -> length t3 = 16%nat ->
  let w0 := dword t3 0 in let w1 := dword t3 1 in let w2 := dword t3 2 in let w3 := dword t3 3 in
  let v0 := xorl w0 (sub_word (dword u1 3)) in
  let v1 := xorl w1 v0 in let v2 := xorl w2 v1 in let v3 := xorl w3 v2 in
  words 4 (KEY_256_ASSIST_2 (aeskeygenassist u1 0) t3) = [v0; v1; v2; v3].
Proof. intros H H'. dregs. words_solve. Qed.

(** lengths and byte-ness of the steps *)
Lemma reg_ke128 key g : reg_ok key -> reg_ok g -> reg_ok (aes_128_key_expansion key g).
Proof.
  intros. unfold aes_128_key_expansion, xor128.
  repeat first [apply reg_xor | apply reg_slli4 | apply reg_shuffle_all; [|lia] | assumption].
Qed.
Lemma reg_ke192 a b c : reg_ok a -> reg_ok b -> reg_ok c ->
  reg_ok (fst (KEY_192_ASSIST a b c)) /\ reg_ok (snd (KEY_192_ASSIST a b c)).
Proof.
  intros. unfold KEY_192_ASSIST, xor128. cbn [fst snd]. split;
  repeat first [apply reg_xor | apply reg_slli4 | apply reg_shuffle_all; [|lia] | assumption].
Qed.
Lemma reg_ke256a a b : reg_ok a -> reg_ok b -> reg_ok (KEY_256_ASSIST_1 a b).
Proof.
  intros. unfold KEY_256_ASSIST_1, xor128.
  repeat first [apply reg_xor | apply reg_slli4 | apply reg_shuffle_all; [|lia] | assumption].
Qed.
Lemma reg_ke256b a b : reg_ok a -> reg_ok b -> reg_ok (KEY_256_ASSIST_2 a b).
Proof.
  intros. unfold KEY_256_ASSIST_2, xor128.
  repeat first [apply reg_xor | apply reg_slli4 | apply reg_shuffle_all; [|lia] | assumption].
Qed.

(** ** the expansion loop of the standard, several words at a time *)
Lemma expand_app nk : forall a i b ws, expand nk i (a + b) ws = expand nk (i + a) b (expand nk i a ws).
Proof.
  induction a; intros; cbn [expand Nat.add].
  - rewrite Nat.add_0_r. reflexivity.
  - rewrite IHa. f_equal. lia.
Qed.
Lemma mod_mul_add nk j r : (r < nk)%nat -> ((nk * j + r) mod nk = r)%nat.
Proof. intros. rewrite Nat.add_comm, Nat.mul_comm, Nat.mod_add by lia. apply Nat.mod_small; auto. Qed.
Lemma div_mul_add nk j r : (r < nk)%nat -> ((nk * j + r) / nk = j)%nat.
Proof. intros. rewrite Nat.mul_comm, Nat.div_add_l by lia. rewrite (Nat.div_small r nk) by auto. lia. Qed.

Lemma next_rot nk j ws : (0 < nk)%nat ->
  next_word nk (nk * j) ws =
  xorl (nth (nk - 1) ws []) (xorl (sub_word (rot_word (nth 0 ws []))) (rcon j)).
Proof.
  intros. unfold next_word. rewrite <- (Nat.add_0_r (nk * j)).
  rewrite mod_mul_add, div_mul_add by lia. cbn [Nat.eqb]. rewrite !xor_bytes_xorl. reflexivity.
Qed.
Lemma next_plain nk j r ws : (0 < r < nk)%nat -> (nk <= 6)%nat \/ r <> 4%nat ->
  next_word nk (nk * j + r) ws = xorl (nth (nk - 1) ws []) (nth 0 ws []).
Proof.
  intros Hr H. unfold next_word.
  rewrite mod_mul_add by lia.
  destruct (Nat.eqb_spec r 0); [lia|].
  assert (E : ((6 <? nk) && (r =? 4))%nat = false).
  { destruct H; [|apply andb_false_intro2; apply Nat.eqb_neq; auto].
    apply andb_false_intro1. apply Nat.ltb_ge. auto. }
  rewrite E, xor_bytes_xorl. reflexivity.
Qed.
Lemma next_sub j ws : next_word 8 (8 * j + 4) ws = xorl (nth 7 ws []) (sub_word (nth 0 ws [])).
Proof.
  unfold next_word. rewrite mod_mul_add by lia. change (4 =? 0)%nat with false.
  change ((6 <? 8) && (4 =? 4))%nat with true. cbv iota. rewrite xor_bytes_xorl. reflexivity.
Qed.

Lemma expand4 j w0 w1 w2 w3 ws :
  let u0 := xorl w0 (xorl (sub_word (rot_word w3)) (rcon j)) in
  let u1 := xorl w1 u0 in let u2 := xorl w2 u1 in let u3 := xorl w3 u2 in
  expand 4 (4 * j) 4 (w3 :: w2 :: w1 :: w0 :: ws) = u3 :: u2 :: u1 :: u0 :: w3 :: w2 :: w1 :: w0 :: ws.
Proof.
  intros u0 u1 u2 u3. cbn [expand].
  rewrite next_rot by lia.
  replace (S (4 * j)) with (4 * j + 1)%nat by lia.
  replace (S (4 * j + 1)) with (4 * j + 2)%nat by lia.
  replace (S (4 * j + 2)) with (4 * j + 3)%nat by lia.
  rewrite !next_plain by lia. cbn [nth Nat.sub]. reflexivity.
Qed.
Lemma expand6 j w0 w1 w2 w3 w4 w5 ws :
  let u0 := xorl w0 (xorl (sub_word (rot_word w5)) (rcon j)) in
  let u1 := xorl w1 u0 in let u2 := xorl w2 u1 in let u3 := xorl w3 u2 in
  let u4 := xorl w4 u3 in let u5 := xorl w5 u4 in
  expand 6 (6 * j) 6 (w5 :: w4 :: w3 :: w2 :: w1 :: w0 :: ws) =
  u5 :: u4 :: u3 :: u2 :: u1 :: u0 :: w5 :: w4 :: w3 :: w2 :: w1 :: w0 :: ws.
Proof.
  intros u0 u1 u2 u3 u4 u5. cbn [expand].
  rewrite next_rot by lia.
  replace (S (6 * j)) with (6 * j + 1)%nat by lia.
  replace (S (6 * j + 1)) with (6 * j + 2)%nat by lia.
  replace (S (6 * j + 2)) with (6 * j + 3)%nat by lia.
  replace (S (6 * j + 3)) with (6 * j + 4)%nat by lia.
  replace (S (6 * j + 4)) with (6 * j + 5)%nat by lia.
  rewrite !next_plain by lia. cbn [nth Nat.sub]. reflexivity.
Qed.
Lemma expand8a j w0 w1 w2 w3 w4 w5 w6 w7 ws :
  let u0 := xorl w0 (xorl (sub_word (rot_word w7)) (rcon j)) in
  let u1 := xorl w1 u0 in let u2 := xorl w2 u1 in let u3 := xorl w3 u2 in
  expand 8 (8 * j) 4 (w7 :: w6 :: w5 :: w4 :: w3 :: w2 :: w1 :: w0 :: ws) =
  u3 :: u2 :: u1 :: u0 :: w7 :: w6 :: w5 :: w4 :: w3 :: w2 :: w1 :: w0 :: ws.
Proof.
  intros u0 u1 u2 u3. cbn [expand].
  rewrite next_rot by lia.
  replace (S (8 * j)) with (8 * j + 1)%nat by lia.
  replace (S (8 * j + 1)) with (8 * j + 2)%nat by lia.
  replace (S (8 * j + 2)) with (8 * j + 3)%nat by lia.
  rewrite !next_plain by lia. cbn [nth Nat.sub]. reflexivity.
Qed.
Lemma expand8b j w4 w5 w6 w7 u0 u1 u2 u3 ws :
  let v0 := xorl w4 (sub_word u3) in
  let v1 := xorl w5 v0 in let v2 := xorl w6 v1 in let v3 := xorl w7 v2 in
  expand 8 (8 * j + 4) 4 (u3 :: u2 :: u1 :: u0 :: w7 :: w6 :: w5 :: w4 :: ws) =
  v3 :: v2 :: v1 :: v0 :: u3 :: u2 :: u1 :: u0 :: w7 :: w6 :: w5 :: w4 :: ws.
Proof.
  intros v0 v1 v2 v3. cbn [expand].
  rewrite next_sub.
  replace (S (8 * j + 4)) with (8 * j + 5)%nat by lia.
  replace (S (8 * j + 5)) with (8 * j + 6)%nat by lia.
  replace (S (8 * j + 6)) with (8 * j + 7)%nat by lia.
  rewrite !next_plain by lia. cbn [nth Nat.sub]. reflexivity.
Qed.

(** ** the whole schedules *)
Definition rc_ok (j : nat) (rcs : list N) : Prop :=
  forall i, (i < length rcs)%nat -> nth i rcs 0 = rcon_byte (j + i) /\ nth i rcs 0 < 256.
Lemma rc_ok_cons j rc rcs : rc_ok j (rc :: rcs) -> rc = rcon_byte j /\ rc < 256 /\ rc_ok (S j) rcs.
Proof.
  intros H. split; [|split].
  - destruct (H 0%nat) as [E _]; [simpl; lia|]. rewrite Nat.add_0_r in E. exact E.
  - apply (H 0%nat). simpl; lia.
  - intros i Hi. destruct (H (S i)) as [E L]; [simpl; lia|]. cbn [nth] in *.
    split; [|assumption]. rewrite E. f_equal. lia.
Qed.

Lemma rev4 (w0 w1 w2 w3 : list N) p : rev (p ++ [w0;w1;w2;w3]) = w3 :: w2 :: w1 :: w0 :: rev p.
Proof. rewrite rev_app_distr. reflexivity. Qed.

Lemma expand_128_step j key rc pre : reg_ok key -> rc = rcon_byte j ->
  expand 4 (4 * j) 4 (rev (pre ++ words 4 key)) =
  rev ((pre ++ words 4 key) ++ words 4 (aes_128_key_expansion key (aeskeygenassist key rc))).
Proof.
  intros Hk Hj. rewrite step128 by apply Hk. rewrite Hj.
  rewrite !words4 by apply Hk. rewrite !rev4, expand4. reflexivity.
Qed.
Lemma v128_words rcs : forall j key pre, reg_ok key -> rc_ok j rcs ->
  rev (expand 4 (4 * j) (4 * length rcs) (rev (pre ++ words 4 key))) = pre ++ flat_map (words 4) (fst (v128 key rcs)).
Proof.
  induction rcs as [|rc rcs IH]; intros j key pre Hk Hrc.
  - cbn [length v128 fst flat_map]. rewrite Nat.mul_0_r. cbn [expand]. rewrite rev_involutive, app_nil_r. reflexivity.
  - apply rc_ok_cons in Hrc as (Hj & Hlt & Hrc).
    cbn [length v128].
    set (key' := aes_128_key_expansion key (aeskeygenassist key rc)).
    replace (4 * S (length rcs))%nat with (4 + 4 * length rcs)%nat by lia.
    rewrite expand_app.
    rewrite (expand_128_step j key rc pre) by assumption. fold key'.
    assert (Hk' : reg_ok key') by (apply reg_ke128; [assumption|apply reg_assist; assumption]).
    replace (4 * j + 4)%nat with (4 * S j)%nat by lia.
    rewrite (IH (S j) key' (pre ++ words 4 key) Hk' Hrc).
    destruct (v128 key' rcs) as [ks out]. cbn [fst flat_map]. rewrite <- app_assoc. reflexivity.
Qed.

Lemma v128_ok rcs : forall j key, reg_ok key -> rc_ok j rcs ->
  length (fst (v128 key rcs)) = S (length rcs) /\ Forall reg_ok (fst (v128 key rcs)).
Proof.
  induction rcs as [|rc rcs IH]; intros j key Hk Hrc; cbn [v128].
  - split; [reflexivity|repeat constructor; apply Hk].
  - apply rc_ok_cons in Hrc as (Hj & Hlt & Hrc).
    assert (Hk' : reg_ok (aes_128_key_expansion key (aeskeygenassist key rc)))
      by (apply reg_ke128; [assumption|apply reg_assist; assumption]).
    destruct (IH (S j) _ Hk' Hrc) as [L F].
    destruct (v128 (aes_128_key_expansion key (aeskeygenassist key rc)) rcs) as [ks out]. cbn [fst length] in *.
    split; [lia|constructor; assumption].
Qed.

Lemma rc_ok_128 : rc_ok 1 rcons128.
Proof. intros i Hi. do 10 (destruct i as [|i]; [split; reflexivity|]). simpl in Hi. lia. Qed.

Lemma all_words_128 key : reg_ok key -> all_words 4 key = flat_map (words 4) (fst (v128 key rcons128)).
Proof. intros H. exact (v128_words rcons128 1 key [] H rc_ok_128). Qed.

(** 192: [rcs] flattened *)
Lemma words6 a b : length a = 16%nat -> length b = 16%nat ->
  words 4 a ++ words 2 b = [dword a 0; dword a 1; dword a 2; dword a 3; dword b 0; dword b 1].
Proof. intros H1 H2. dlist a H1. dlist b H2. reflexivity. Qed.
Lemma rev6 (w0 w1 w2 w3 w4 w5 : list N) p :
  rev (p ++ [w0;w1;w2;w3;w4;w5]) = w5 :: w4 :: w3 :: w2 :: w1 :: w0 :: rev p.
Proof. rewrite rev_app_distr. reflexivity. Qed.
Definition flat2 (l : list (N * N)) : list N := flat_map (fun p => [fst p; snd p]) l.

Lemma expand_192_step j t1 t3 rc pre : reg_ok t1 -> reg_ok t3 -> rc = rcon_byte j ->
  let r := KEY_192_ASSIST t1 (aeskeygenassist t3 rc) t3 in
  expand 6 (6 * j) 6 (rev (pre ++ words 4 t1 ++ words 2 t3)) =
  rev ((pre ++ words 4 t1 ++ words 2 t3) ++ words 4 (fst r) ++ words 2 (snd r)).
Proof.
  intros H1 H3 Hj r. unfold r. rewrite step192 by (apply H1 || apply H3). rewrite Hj.
  rewrite !words6 by (apply H1 || apply H3). rewrite !rev6, expand6. reflexivity.
Qed.

Fixpoint last3 (t1 t3 : reg) (rcs : list (N * N)) : list (list N) :=
  match rcs with
  | [] => words 2 t3
  | (ra, rb) :: rcs' =>
    let u := KEY_192_ASSIST t1 (aeskeygenassist t3 ra) t3 in
    let w := KEY_192_ASSIST (fst u) (aeskeygenassist (snd u) rb) (snd u) in
    last3 (fst w) (snd w) rcs'
  end.
Lemma last3_length rcs : forall t1 t3, length (last3 t1 t3 rcs) = 2%nat.
Proof. induction rcs as [|[ra rb] rcs IH]; intros; cbn [last3]; [reflexivity|apply IH]. Qed.

Lemma pd_words t3 u1 u3 : length t3 = 16%nat -> length u1 = 16%nat -> length u3 = 16%nat ->
  words 4 (shuffle_pd0 t3 u1) ++ words 4 (shuffle_pd1 u1 u3) = words 2 t3 ++ words 4 u1 ++ words 2 u3.
Proof. intros. dregs. reflexivity. Qed.

Lemma v192_words rcs : forall j t1 t3 pre, reg_ok t1 -> reg_ok t3 -> rc_ok j (flat2 rcs) ->
  rev (expand 6 (6 * j) (12 * length rcs) (rev (pre ++ words 4 t1 ++ words 2 t3)))
  = pre ++ flat_map (words 4) (fst (v192 t1 t3 rcs)) ++ last3 t1 t3 rcs.
Proof.
  induction rcs as [|[ra rb] rcs IH]; intros j t1 t3 pre H1 H3 Hrc.
  - cbn [length v192 fst flat_map last3]. rewrite Nat.mul_0_r. cbn [expand]. rewrite rev_involutive, app_nil_r. reflexivity.
  - cbn [flat2 flat_map fst snd app] in Hrc.
    apply rc_ok_cons in Hrc as (Hj & Hlt & Hrc). apply rc_ok_cons in Hrc as (Hj' & Hlt' & Hrc).
    cbn [length v192 last3].
    destruct (KEY_192_ASSIST t1 (aeskeygenassist t3 ra) t3) as [u1 u3] eqn:Eu.
    destruct (reg_ke192 t1 (aeskeygenassist t3 ra) t3 H1 (reg_assist _ _ H3 Hlt) H3) as [Hu1 Hu3].
    rewrite Eu in Hu1, Hu3. cbn [fst snd] in *.
    destruct (KEY_192_ASSIST u1 (aeskeygenassist u3 rb) u3) as [w1 w3] eqn:Ew.
    destruct (reg_ke192 u1 (aeskeygenassist u3 rb) u3 Hu1 (reg_assist _ _ Hu3 Hlt') Hu3) as [Hw1 Hw3].
    rewrite Ew in Hw1, Hw3. cbn [fst snd] in *.
    replace (12 * S (length rcs))%nat with (6 + (6 + 12 * length rcs))%nat by lia.
    rewrite expand_app. rewrite (expand_192_step j t1 t3 ra pre) by assumption.
    rewrite Eu. cbn [fst snd]. rewrite expand_app.
    replace (6 * j + 6)%nat with (6 * S j)%nat by lia.
    rewrite (expand_192_step (S j) u1 u3 rb) by assumption.
    rewrite Ew. cbn [fst snd].
    replace (6 * S j + 6)%nat with (6 * S (S j))%nat by lia.
    rewrite (IH (S (S j)) w1 w3 _ Hw1 Hw3 Hrc).
    destruct (v192 w1 w3 rcs) as [ks out]. cbn [fst flat_map].
    rewrite (app_assoc (words 4 (shuffle_pd0 t3 u1))).
    rewrite pd_words by (apply H3 || apply Hu1 || apply Hu3).
    rewrite <- !app_assoc. reflexivity.
Qed.

Lemma v192_ok rcs : forall j t1 t3, reg_ok t1 -> reg_ok t3 -> rc_ok j (flat2 rcs) ->
  length (fst (v192 t1 t3 rcs)) = (3 * length rcs + 1)%nat /\ Forall reg_ok (fst (v192 t1 t3 rcs)).
Proof.
  induction rcs as [|[ra rb] rcs IH]; intros j t1 t3 H1 H3 Hrc.
  - cbn. split; [reflexivity|repeat constructor; apply H1].
  - cbn [flat2 flat_map fst snd app] in Hrc.
    apply rc_ok_cons in Hrc as (Hj & Hlt & Hrc). apply rc_ok_cons in Hrc as (Hj' & Hlt' & Hrc).
    cbn [length v192].
    destruct (KEY_192_ASSIST t1 (aeskeygenassist t3 ra) t3) as [u1 u3] eqn:Eu.
    destruct (reg_ke192 t1 (aeskeygenassist t3 ra) t3 H1 (reg_assist _ _ H3 Hlt) H3) as [Hu1 Hu3].
    rewrite Eu in Hu1, Hu3. cbn [fst snd] in *.
    destruct (KEY_192_ASSIST u1 (aeskeygenassist u3 rb) u3) as [w1 w3] eqn:Ew.
    destruct (reg_ke192 u1 (aeskeygenassist u3 rb) u3 Hu1 (reg_assist _ _ Hu3 Hlt') Hu3) as [Hw1 Hw3].
    rewrite Ew in Hw1, Hw3. cbn [fst snd] in *.
    destruct (IH (S (S j)) w1 w3 Hw1 Hw3 Hrc) as [L F].
    destruct (v192 w1 w3 rcs) as [ks out]. cbn [fst length] in *.
    split; [lia|]. constructor; [assumption|]. constructor; [apply reg_shuffle_pd0; assumption|].
    constructor; [apply reg_shuffle_pd1; assumption|assumption].
Qed.

Lemma rc_ok_192 : rc_ok 1 (flat2 rcons192).
Proof. intros i Hi. do 8 (destruct i as [|i]; [split; reflexivity|]). simpl in Hi. lia. Qed.

Definition hi192 (key : bytes) : reg := skipn 16 (firstn 24 key ++ zeros 8).
Definition lo192 (key : bytes) : reg := firstn 16 (firstn 24 key ++ zeros 8).
Lemma reg_192 key : length key = 24%nat -> is_bytes key -> reg_ok (lo192 key) /\ reg_ok (hi192 key).
Proof.
  intros H Hb. unfold lo192, hi192.
  assert (Hb' : is_bytes (firstn 24 key ++ zeros 8)) by (apply is_bytes_app; [apply is_bytes_firstn; assumption|apply is_bytes_zeros]).
  split; split.
  - rewrite firstn_length, app_length, firstn_length, H. reflexivity.
  - apply is_bytes_firstn; assumption.
  - rewrite skipn_length, app_length, firstn_length, H. reflexivity.
  - apply is_bytes_skipn; assumption.
Qed.

Lemma drop2 {A} (a b : A) X F L : rev (a :: b :: X) = F ++ L -> length L = 2%nat -> rev X = F.
Proof.
  intros W LL. destruct L as [|l1 [|l2 [|]]]; try discriminate LL.
  apply (f_equal (@rev A)) in W. rewrite rev_involutive, rev_app_distr in W. cbn [rev app] in W.
  injection W as _ _ W. rewrite W. apply rev_involutive.
Qed.

Lemma all_words_192 key : length key = 24%nat -> is_bytes key ->
  all_words 6 key = flat_map (words 4) (fst (v192 (lo192 key) (hi192 key) rcons192)).
Proof.
  intros H Hb. destruct (reg_192 key H Hb) as [H1 H3].
  assert (E : words 6 key = words 4 (lo192 key) ++ words 2 (hi192 key)).
  { clear Hb H1 H3. dlist key H. reflexivity. }
  pose proof (v192_words rcons192 1 (lo192 key) (hi192 key) [] H1 H3 rc_ok_192) as W.
  cbn [app] in W. rewrite <- E in W.
  destruct (v192_ok rcons192 1 _ _ H1 H3 rc_ok_192) as [L _].
  unfold all_words. change (4 * (nr_of 6 + 1) - 6)%nat with 46%nat.
  change (12 * length rcons192)%nat with (46 + 2)%nat in W. change (6 * 1)%nat with 6%nat in W.
  rewrite expand_app in W.
  generalize dependent (expand 6 6 46 (rev (words 6 key))). intros X W.
  cbn [expand] in W. apply drop2 in W; [exact W|apply last3_length].
Qed.

(** 256 *)
Lemma words8 a b : length a = 16%nat -> length b = 16%nat ->
  words 4 a ++ words 4 b = [dword a 0; dword a 1; dword a 2; dword a 3; dword b 0; dword b 1; dword b 2; dword b 3].
Proof. intros H1 H2. rewrite !words4 by assumption. reflexivity. Qed.
Lemma rev8 (w0 w1 w2 w3 w4 w5 w6 w7 : list N) p :
  rev (p ++ [w0;w1;w2;w3;w4;w5;w6;w7]) = w7 :: w6 :: w5 :: w4 :: w3 :: w2 :: w1 :: w0 :: rev p.
Proof. rewrite rev_app_distr. reflexivity. Qed.

Lemma expand_256_a j t1 t3 rc pre : reg_ok t1 -> reg_ok t3 -> rc = rcon_byte j ->
  expand 8 (8 * j) 4 (rev (pre ++ words 4 t1 ++ words 4 t3)) =
  rev ((pre ++ words 4 t1) ++ words 4 t3 ++ words 4 (KEY_256_ASSIST_1 t1 (aeskeygenassist t3 rc))).
Proof.
  intros H1 H3 Hj. rewrite step256a by (apply H1 || apply H3). rewrite Hj.
  rewrite words8 by (apply H1 || apply H3). rewrite rev8, expand8a.
  rewrite (words4 t1), (words4 t3) by (apply H1 || apply H3). cbn [app].
  rewrite rev8, rev4. reflexivity.
Qed.
Lemma expand_256_b j u1 t3 pre : reg_ok u1 -> reg_ok t3 ->
  expand 8 (8 * j + 4) 4 (rev (pre ++ words 4 t3 ++ words 4 u1)) =
  rev ((pre ++ words 4 t3) ++ words 4 u1 ++ words 4 (KEY_256_ASSIST_2 (aeskeygenassist u1 0) t3)).
Proof.
  intros H1 H3. rewrite step256b by (apply H1 || apply H3).
  rewrite words8 by (apply H1 || apply H3). rewrite rev8, expand8b.
  rewrite (words4 u1), (words4 t3) by (apply H1 || apply H3). cbn [app].
  rewrite rev8, rev4. reflexivity.
Qed.

Lemma v256_words rcs : forall j t1 t3 pre, reg_ok t1 -> reg_ok t3 -> rc_ok j (rcs ++ [0x40]) ->
  rev (expand 8 (8 * j) (8 * length rcs + 4) (rev (pre ++ words 4 t1 ++ words 4 t3)))
  = pre ++ flat_map (words 4) (fst (v256 t1 t3 rcs)).
Proof.
  induction rcs as [|rc rcs IH]; intros j t1 t3 pre H1 H3 Hrc.
  - cbn [app] in Hrc. apply rc_ok_cons in Hrc as (Hj & Hlt & _).
    cbn [length v256 fst flat_map]. rewrite Nat.mul_0_r. cbn [Nat.add].
    rewrite (expand_256_a j t1 t3 0x40) by assumption. rewrite rev_involutive, app_nil_r, <- !app_assoc. reflexivity.
  - cbn [app] in Hrc. apply rc_ok_cons in Hrc as (Hj & Hlt & Hrc).
    cbn [length v256].
    set (u1 := KEY_256_ASSIST_1 t1 (aeskeygenassist t3 rc)).
    assert (Hu1 : reg_ok u1) by (apply reg_ke256a; [assumption|apply reg_assist; assumption]).
    set (u3 := KEY_256_ASSIST_2 (aeskeygenassist u1 0) t3).
    assert (Hu3 : reg_ok u3) by (apply reg_ke256b; [apply reg_assist; [assumption|reflexivity]|assumption]).
    replace (8 * S (length rcs) + 4)%nat with (4 + (4 + (8 * length rcs + 4)))%nat by lia.
    rewrite expand_app. rewrite (expand_256_a j t1 t3 rc) by assumption. fold u1.
    rewrite expand_app. rewrite (expand_256_b j u1 t3) by assumption. fold u3.
    replace (8 * j + 4 + 4)%nat with (8 * S j)%nat by lia.
    rewrite (IH (S j) u1 u3 _ Hu1 Hu3 Hrc).
    destruct (v256 u1 u3 rcs) as [ks out]. cbn [fst flat_map].
    rewrite <- !app_assoc. reflexivity.
Qed.

Lemma v256_ok rcs : forall j t1 t3, reg_ok t1 -> reg_ok t3 -> rc_ok j (rcs ++ [0x40]) ->
  length (fst (v256 t1 t3 rcs)) = (2 * length rcs + 3)%nat /\ Forall reg_ok (fst (v256 t1 t3 rcs)).
Proof.
  induction rcs as [|rc rcs IH]; intros j t1 t3 H1 H3 Hrc.
  - cbn [v256 fst length]. split; [reflexivity|]. repeat apply Forall_cons; try apply Forall_nil; try assumption.
    apply reg_ke256a; [assumption|apply reg_assist; [assumption|reflexivity]].
  - cbn [app] in Hrc. apply rc_ok_cons in Hrc as (Hj & Hlt & Hrc).
    cbn [length v256].
    set (u1 := KEY_256_ASSIST_1 t1 (aeskeygenassist t3 rc)).
    assert (Hu1 : reg_ok u1) by (apply reg_ke256a; [assumption|apply reg_assist; assumption]).
    set (u3 := KEY_256_ASSIST_2 (aeskeygenassist u1 0) t3).
    assert (Hu3 : reg_ok u3) by (apply reg_ke256b; [apply reg_assist; [assumption|reflexivity]|assumption]).
    destruct (IH (S j) u1 u3 Hu1 Hu3 Hrc) as [L F].
    destruct (v256 u1 u3 rcs) as [ks out]. cbn [fst length] in *.
    split; [lia|]. constructor; [assumption|]. constructor; assumption.
Qed.

Lemma rc_ok_256 : rc_ok 1 (rcons256 ++ [0x40]).
Proof. intros i Hi. do 7 (destruct i as [|i]; [split; reflexivity|]). simpl in Hi. lia. Qed.

Lemma reg_256 key : length key = 32%nat -> is_bytes key -> reg_ok (firstn 16 key) /\ reg_ok (skipn 16 key).
Proof.
  intros H Hb. split; split.
  - rewrite firstn_length, H. reflexivity.
  - apply is_bytes_firstn; assumption.
  - rewrite skipn_length, H. reflexivity.
  - apply is_bytes_skipn; assumption.
Qed.
Lemma all_words_256 key : length key = 32%nat -> is_bytes key ->
  all_words 8 key = flat_map (words 4) (fst (v256 (firstn 16 key) (skipn 16 key) rcons256)).
Proof.
  intros H Hb. destruct (reg_256 key H Hb) as [H1 H3].
  assert (E : words 8 key = words 4 (firstn 16 key) ++ words 4 (skipn 16 key)).
  { clear Hb H1 H3. dlist key H. reflexivity. }
  pose proof (v256_words rcons256 1 _ _ [] H1 H3 rc_ok_256) as W.
  cbn [app] in W. rewrite <- E in W. exact W.
Qed.

(** ** round keys and recorded inputs *)
Lemma concat_words a : length a = 16%nat -> concat (words 4 a) = a.
Proof. intros H. dlist a H. reflexivity. Qed.
Lemma words_length n l : length (words n l) = n.
Proof. revert l; induction n; intros; cbn [words length]; auto. Qed.
Lemma round_keys_of L : Forall reg_ok L -> forall i, (i < length L)%nat ->
  concat (firstn 4 (skipn (4 * i) (flat_map (words 4) L))) = nth i L [].
Proof.
  induction 1 as [|a L Ha HL IH]; intros i Hi; [simpl in Hi; lia|].
  cbn [flat_map]. destruct i as [|i].
  - rewrite Nat.mul_0_r. cbn [skipn nth]. rewrite firstn_app, words_length, Nat.sub_diag, firstn_O, app_nil_r. rewrite firstn_all2 by (rewrite words_length; lia). apply concat_words. apply Ha.
  - replace (4 * S i)%nat with (4 + 4 * i)%nat by lia.
    rewrite skipn_app, words_length.
    rewrite skipn_all2 by (rewrite words_length; lia). cbn [app].
    replace (4 + 4 * i - 4)%nat with (4 * i)%nat by lia. cbn [nth]. apply IH. simpl in Hi. lia.
Qed.

Lemma nth_seq_map {A} (L : list A) d : L = map (fun i => nth i L d) (seq 0 (length L)).
Proof.
  apply (nth_ext _ _ d d); [rewrite map_length, seq_length; reflexivity|].
  intros n Hn. rewrite (nth_indep (map _ _) d (nth 0%nat L d)) by (rewrite map_length, seq_length; exact Hn).
  rewrite (map_nth (fun i => nth i L d)). rewrite seq_nth by assumption. reflexivity.
Qed.
Lemma round_keys nk key L : all_words nk key = flat_map (words 4) L -> Forall reg_ok L ->
  L = map (round_key nk key) (seq 0 (length L)).
Proof.
  intros E F. rewrite (nth_seq_map L []) at 1. apply map_ext_in. intros i Hi. apply in_seq in Hi.
  unfold round_key. rewrite E. symmetry. apply round_keys_of; [assumption|exact (proj2 Hi)].
Qed.

(** ** the out lists are the inputs recorded by the standard *)
Lemma outs_128 rcs : forall key, snd (v128 key rcs) = flat_map (fun k => rot_word (dword k 3)) (removelast (fst (v128 key rcs))).
Proof.
  induction rcs as [|rc rcs IH]; intros key; [reflexivity|].
  cbn [v128]. specialize (IH (aes_128_key_expansion key (aeskeygenassist key rc))).
  destruct (v128 (aes_128_key_expansion key (aeskeygenassist key rc)) rcs) as [ks out] eqn:E.
  assert (ks <> []).
  { destruct rcs; cbn [v128] in E; [inversion E; discriminate|].
    destruct (v128 _ rcs) in E. inversion E. discriminate. }
  cbn [fst snd] in *. rewrite IH. destruct ks; [congruence|]. cbn [removelast flat_map]. reflexivity.
Qed.
Lemma key_inputs_128 key : reg_ok key -> key_sbox_inputs 4 key = snd (v128 key rcons128).
Proof.
  intros H. unfold key_sbox_inputs. rewrite all_words_128 by assumption. rewrite outs_128.
  destruct (v128_ok rcons128 1 key H rc_ok_128) as [L F].
  remember (fst (v128 key rcons128)) as ks eqn:Ek. clear Ek H.
  change (length rcons128) with 10%nat in L.
  do 11 (destruct ks as [|? ks]; [discriminate L|]). destruct ks; [|discriminate L].
  repeat match goal with X : Forall reg_ok (_ :: _) |- _ => let A := fresh in let B := fresh in
    inversion X as [|? ? A B]; subst; clear X; destruct A as [A _] end.
  cbn [flat_map]. rewrite !words4 by assumption. cbn -[rot_word dword N.lxor]. rewrite ?app_nil_r. reflexivity.
Qed.

Fixpoint o192 (ks : list reg) : bytes :=
  match ks with
  | k0 :: k1 :: k2 :: ks' => rot_word (dword k1 1) ++ rot_word (dword k2 3) ++ o192 ks'
  | _ => []
  end.
Lemma pd0_dword a b : length a = 16%nat -> length b = 16%nat -> dword (shuffle_pd0 a b) 1 = dword a 1.
Proof. intros. dregs. reflexivity. Qed.
Lemma pd1_dword a b : length a = 16%nat -> length b = 16%nat -> dword (shuffle_pd1 a b) 3 = dword b 1.
Proof. intros. dregs. reflexivity. Qed.
Lemma outs_192 rcs : forall j t1 t3, reg_ok t1 -> reg_ok t3 -> rc_ok j (flat2 rcs) ->
  snd (v192 t1 t3 rcs) = o192 (fst (v192 t1 t3 rcs)).
Proof.
  induction rcs as [|[ra rb] rcs IH]; intros j t1 t3 H1 H3 Hrc; [reflexivity|].
  cbn [flat2 flat_map fst snd app] in Hrc.
  apply rc_ok_cons in Hrc as (Hj & Hlt & Hrc). apply rc_ok_cons in Hrc as (Hj' & Hlt' & Hrc).
  cbn [v192].
  destruct (KEY_192_ASSIST t1 (aeskeygenassist t3 ra) t3) as [u1 u3] eqn:Eu.
  destruct (reg_ke192 t1 (aeskeygenassist t3 ra) t3 H1 (reg_assist _ _ H3 Hlt) H3) as [Hu1 Hu3].
  rewrite Eu in Hu1, Hu3. cbn [fst snd] in *.
  destruct (KEY_192_ASSIST u1 (aeskeygenassist u3 rb) u3) as [w1 w3] eqn:Ew.
  destruct (reg_ke192 u1 (aeskeygenassist u3 rb) u3 Hu1 (reg_assist _ _ Hu3 Hlt') Hu3) as [Hw1 Hw3].
  rewrite Ew in Hw1, Hw3. cbn [fst snd] in *.
  specialize (IH (S (S j)) w1 w3 Hw1 Hw3 Hrc).
  destruct (v192 w1 w3 rcs) as [ks out]. cbn [fst snd o192] in *.
  rewrite pd0_dword, pd1_dword by (apply H3 || apply Hu1 || apply Hu3). rewrite IH. reflexivity.
Qed.
Lemma key_inputs_192 key : length key = 24%nat -> is_bytes key ->
  key_sbox_inputs 6 key = snd (v192 (lo192 key) (hi192 key) rcons192).
Proof.
  intros H Hb. destruct (reg_192 key H Hb) as [H1 H3].
  unfold key_sbox_inputs. rewrite all_words_192 by assumption. rewrite (outs_192 _ 1) by (try assumption; apply rc_ok_192).
  destruct (v192_ok rcons192 1 _ _ H1 H3 rc_ok_192) as [L F].
  remember (fst (v192 (lo192 key) (hi192 key) rcons192)) as ks eqn:Ek. clear Ek H1 H3 Hb.
  change (3 * length rcons192 + 1)%nat with 13%nat in L.
  do 13 (destruct ks as [|? ks]; [discriminate L|]). destruct ks; [|discriminate L].
  repeat match goal with X : Forall reg_ok (_ :: _) |- _ => let A := fresh in let B := fresh in
    inversion X as [|? ? A B]; subst; clear X; destruct A as [A _] end.
  cbn [flat_map]. rewrite !words4 by assumption. cbn -[rot_word dword N.lxor]. rewrite ?app_nil_r. reflexivity.
Qed.

Fixpoint o256 (ks : list reg) : bytes :=
  match ks with
  | t1 :: t3 :: ((u1 :: r) as ks') =>
    rot_word (dword t3 3) ++ match r with [] => [] | _ => dword u1 3 ++ o256 ks' end
  | _ => []
  end.
Lemma v256_shape t1 t3 rcs : exists r k, fst (v256 t1 t3 rcs) = t1 :: t3 :: k :: r.
Proof.
  revert t1 t3; induction rcs as [|rc rcs IH]; intros; cbn [v256].
  - eexists _, _. reflexivity.
  - destruct (IH (KEY_256_ASSIST_1 t1 (aeskeygenassist t3 rc))
      (KEY_256_ASSIST_2 (aeskeygenassist (KEY_256_ASSIST_1 t1 (aeskeygenassist t3 rc)) 0) t3)) as (r & k & E).
    destruct (v256 _ _ rcs) as [ks out]. cbn [fst] in *. rewrite E. eexists _, _. reflexivity.
Qed.
Lemma outs_256 rcs : forall t1 t3, snd (v256 t1 t3 rcs) = o256 (fst (v256 t1 t3 rcs)).
Proof.
  induction rcs as [|rc rcs IH]; intros t1 t3; cbn [v256].
  - cbn [snd fst o256]. rewrite app_nil_r. reflexivity.
  - set (u1 := KEY_256_ASSIST_1 t1 (aeskeygenassist t3 rc)).
    set (u3 := KEY_256_ASSIST_2 (aeskeygenassist u1 0) t3).
    destruct (v256_shape u1 u3 rcs) as (r & k & E).
    specialize (IH u1 u3). destruct (v256 u1 u3 rcs) as [ks out]. cbn [fst snd] in *. subst ks.
    rewrite IH. cbn [o256]. reflexivity.
Qed.
Lemma key_inputs_256 key : length key = 32%nat -> is_bytes key ->
  key_sbox_inputs 8 key = snd (v256 (firstn 16 key) (skipn 16 key) rcons256).
Proof.
  intros H Hb. destruct (reg_256 key H Hb) as [H1 H3].
  unfold key_sbox_inputs. rewrite all_words_256 by assumption. rewrite outs_256.
  destruct (v256_ok rcons256 1 _ _ H1 H3 rc_ok_256) as [L F].
  remember (fst (v256 (firstn 16 key) (skipn 16 key) rcons256)) as ks eqn:Ek. clear Ek H1 H3 Hb.
  change (2 * length rcons256 + 3)%nat with 15%nat in L.
  do 15 (destruct ks as [|? ks]; [discriminate L|]). destruct ks; [|discriminate L].
  repeat match goal with X : Forall reg_ok (_ :: _) |- _ => let A := fresh in let B := fresh in
    inversion X as [|? ? A B]; subst; clear X; destruct A as [A _] end.
  cbn [flat_map]. rewrite !words4 by assumption. cbn -[rot_word dword N.lxor]. rewrite ?app_nil_r. reflexivity.
Qed.
