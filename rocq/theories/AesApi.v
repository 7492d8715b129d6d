(** The plain AES functions of the API in terms of FIPS-197. *)
From Coq Require Import Arith NArith List Bool Lia.
From Verif Require Import Prelude Clmul Gf8 AesSpec AesModel AesBase AesKs AesPlain.
Import ListNotations.
Local Open Scope N_scope.

(** the 16-byte blocks of a two-block message *)
Definition blocks2 (pt : bytes) : list bytes := [firstn 16 pt; skipn 16 pt].
(** all S-box inputs in FIPS order *)
Definition all_sbox_inputs (nk : nat) (key : bytes) (blocks : list bytes) : bytes :=
  key_sbox_inputs nk key ++ flat_map (block_sbox_inputs nk key) blocks.

Section OneKey.
  Variable nk : nat.
  Variable key : bytes.
  Hypothesis Hrk : rk_ok nk key.
  Lemma trace_zero blocks : (0 < nr_of nk)%nat -> Forall reg_ok blocks ->
    (In 0 (sbox_trace nk key blocks) <-> In 0 (all_sbox_inputs nk key blocks)).
  Proof.
    intros Hn Hb. unfold sbox_trace, all_sbox_inputs. rewrite !in_app_iff.
    assert (E : In 0 (flat_map (fun pt => flat_map rows (map (state_after nk key pt) (seq 0 (nr_of nk)))) blocks)
                <-> In 0 (flat_map (block_sbox_inputs nk key) blocks)); [|tauto].
    rewrite !in_flat_map.
    assert (F : forall pt, reg_ok pt -> (In 0 (flat_map rows (map (state_after nk key pt) (seq 0 (nr_of nk)))) <->
                                         In 0 (block_sbox_inputs nk key pt))).
    { intros pt Hp. unfold block_sbox_inputs. rewrite in_flat_map, in_concat.
      split; intros (x & H1 & H2); exists x; split; try assumption.
      all: apply in_map_iff in H1 as (i & <- & Hi); apply in_seq in Hi.
      all: apply has_zero_iff; apply has_zero_iff in H2; rewrite has_zero_rows in *; try assumption.
      all: apply (state_ok nk key pt Hp Hrk); lia. }
    rewrite Forall_forall in Hb.
    split; intros (pt & H1 & H2); exists pt; split; try assumption; apply F; auto.
  Qed.
  Lemma trace_bytes blocks : is_bytes (key_sbox_inputs nk key) -> Forall reg_ok blocks -> is_bytes (sbox_trace nk key blocks).
  Proof.
    intros Hk Hb. unfold sbox_trace. apply is_bytes_app; [assumption|].
    apply Forall_flat_map. eapply Forall_impl; [|exact Hb]. intros pt Hp.
    apply Forall_flat_map. rewrite Forall_forall. intros s Hs. apply in_map_iff in Hs as (i & <- & Hi). apply in_seq in Hi.
    assert (Ho : reg_ok (state_after nk key pt i)) by (apply (state_ok nk key pt Hp Hrk); lia).
    unfold rows. apply Forall_map. apply Forall_forall. intros j _. unfold at_. apply is_bytes_nth. apply Ho.
  Qed.
  Lemma rows_length s : length (rows s) = 16%nat.
  Proof. unfold rows. rewrite map_length, seq_length. reflexivity. Qed.
  Lemma flat_rows_length l : length (flat_map rows l) = (16 * length l)%nat.
  Proof. induction l; cbn [flat_map]; [reflexivity|]. rewrite app_length, IHl, rows_length. cbn [length]. lia. Qed.
  Lemma trace_length blocks : length (sbox_trace nk key blocks) =
    (length (key_sbox_inputs nk key) + 16 * nr_of nk * length blocks)%nat.
  Proof.
    unfold sbox_trace. rewrite app_length. f_equal.
    induction blocks as [|b bs IH]; cbn [flat_map]; [cbn; lia|].
    rewrite app_length, IH, flat_rows_length, map_length, seq_length. cbn [length]. lia.
  Qed.
End OneKey.

(** the recorded key schedule inputs: number and range *)
Lemma rotword_len w : length (rotword w) = length w.
Proof. destruct w; cbn [rotword length]; auto. rewrite app_length. cbn. lia. Qed.
Lemma word_ok a i : reg_ok a -> (i < 4)%nat -> length (dword a i) = 4%nat /\ is_bytes (dword a i).
Proof. intros [H B] Hi. split; [apply dword_length; assumption|apply dword_bytes; assumption]. Qed.
Lemma rot_ok a i : reg_ok a -> (i < 4)%nat -> length (rotword (dword a i)) = 4%nat /\ is_bytes (rotword (dword a i)).
Proof.
  intros H Hi. destruct (word_ok a i H Hi) as [L B]. rewrite rotword_len. split; [assumption|apply is_bytes_rot; assumption].
Qed.
Lemma v128_out rcs : forall key, reg_ok key -> Forall (fun r => r < 256) rcs ->
  length (snd (v128 key rcs)) = (4 * length rcs)%nat /\ is_bytes (snd (v128 key rcs)).
Proof.
  induction rcs as [|rc rcs IH]; intros key Hk Hr; cbn [v128].
  - split; [reflexivity|constructor].
  - inversion Hr; subst.
    specialize (IH (aes_128_key_expansion key (aeskeygenassist key rc))).
    destruct (v128 (aes_128_key_expansion key (aeskeygenassist key rc)) rcs) as [ks out]. cbn [snd] in *.
    destruct IH as [L B]; [apply reg_ke128; [assumption|apply reg_assist; assumption]|assumption|].
    destruct (rot_ok key 3 Hk) as [L' B']; [lia|].
    rewrite app_length, L, L'. cbn [length]. split; [lia|apply is_bytes_app; assumption].
Qed.
Lemma v192_out rcs : forall t1 t3, reg_ok t1 -> reg_ok t3 -> Forall (fun r => fst r < 256 /\ snd r < 256) rcs ->
  length (snd (v192 t1 t3 rcs)) = (8 * length rcs)%nat /\ is_bytes (snd (v192 t1 t3 rcs)).
Proof.
  induction rcs as [|[ra rb] rcs IH]; intros t1 t3 H1 H3 Hr; cbn [v192].
  - split; [reflexivity|constructor].
  - inversion Hr as [|? ? [Ra Rb] Hr']; subst. cbn [fst snd] in *.
    pose proof (reg_ke192 t1 (aeskeygenassist t3 ra) t3 H1 (reg_assist _ _ H3 Ra) H3) as [U1 U3].
    destruct (KEY_192_ASSIST t1 (aeskeygenassist t3 ra) t3) as [u1 u3]. cbn [fst snd] in U1, U3.
    pose proof (reg_ke192 u1 (aeskeygenassist u3 rb) u3 U1 (reg_assist _ _ U3 Rb) U3) as [W1 W3].
    destruct (KEY_192_ASSIST u1 (aeskeygenassist u3 rb) u3) as [w1 w3]. cbn [fst snd] in W1, W3.
    specialize (IH w1 w3 W1 W3 Hr'). destruct (v192 w1 w3 rcs) as [ks out]. cbn [snd] in *. destruct IH as [L B].
    destruct (rot_ok t3 1 H3) as [L1 B1]; [lia|]. destruct (rot_ok u3 1 U3) as [L2 B2]; [lia|].
    rewrite !app_length, L, L1, L2. cbn [length]. split; [lia|repeat apply is_bytes_app; assumption].
Qed.
Lemma v256_out rcs : forall t1 t3, reg_ok t1 -> reg_ok t3 -> Forall (fun r => r < 256) rcs ->
  length (snd (v256 t1 t3 rcs)) = (8 * length rcs + 4)%nat /\ is_bytes (snd (v256 t1 t3 rcs)).
Proof.
  induction rcs as [|rc rcs IH]; intros t1 t3 H1 H3 Hr; cbn [v256].
  - destruct (rot_ok t3 3 H3) as [L B]; [lia|]. split; assumption.
  - inversion Hr as [|? ? Ra Hr']; subst.
    pose proof (reg_ke256a t1 _ H1 (reg_assist _ rc H3 Ra)) as U1. set (u1 := KEY_256_ASSIST_1 t1 (aeskeygenassist t3 rc)) in *.
    assert (Z : 0 < 256) by reflexivity.
    pose proof (reg_ke256b _ t3 (reg_assist u1 0 U1 Z) H3) as U3. set (u3 := KEY_256_ASSIST_2 (aeskeygenassist u1 0) t3) in *.
    specialize (IH u1 u3 U1 U3 Hr'). destruct (v256 u1 u3 rcs) as [ks out]. cbn [snd] in *. destruct IH as [L B].
    destruct (rot_ok t3 3 H3) as [L1 B1]; [lia|]. destruct (word_ok u1 3 U1) as [L2 B2]; [lia|].
    rewrite !app_length, L, L1, L2. cbn [length]. split; [lia|repeat apply is_bytes_app; assumption].
Qed.
Lemma key_out_128 key : reg_ok key -> length (key_sbox_inputs 4 key) = 40%nat /\ is_bytes (key_sbox_inputs 4 key).
Proof. intros H. rewrite key_inputs_128 by assumption. apply v128_out; [assumption|repeat constructor]. Qed.
Lemma key_out_192 key : length key = 24%nat -> is_bytes key -> length (key_sbox_inputs 6 key) = 32%nat /\ is_bytes (key_sbox_inputs 6 key).
Proof.
  intros H B. rewrite key_inputs_192 by assumption. destruct (reg_192 key H B).
  apply v192_out; [assumption..|repeat constructor].
Qed.
Lemma key_out_256 key : length key = 32%nat -> is_bytes key -> length (key_sbox_inputs 8 key) = 52%nat /\ is_bytes (key_sbox_inputs 8 key).
Proof.
  intros H B. rewrite key_inputs_256 by assumption. destruct (reg_256 key H B).
  apply v256_out; [assumption..|repeat constructor].
Qed.

Lemma reg_blocks2 pt : length pt = 32%nat -> is_bytes pt -> Forall reg_ok (blocks2 pt).
Proof.
  intros H B. unfold blocks2. repeat constructor; rewrite ?firstn_length, ?skipn_length, ?H; try reflexivity;
  [apply is_bytes_firstn|apply is_bytes_skipn]; assumption.
Qed.

(** ** What a recording evaluation yields *)
Definition records (x : sv bytes) (l ct : bytes) : Prop :=
  (In 0 l -> snd x = None) /\ (~ In 0 l -> x = ((l, map inverse l), Some ct)).
Lemma sv_is_records x l ct : sv_is x ([], []) l ct -> records x l ct.
Proof.
  unfold sv_is. intros H. split; intros Hz.
  - apply has_zero_iff in Hz. rewrite Hz in H. apply H.
  - destruct (has_zero l) eqn:E; [apply has_zero_iff in E; contradiction|]. exact H.
Qed.
Lemma records_some x l ct r : records x l ct -> snd x = Some r -> ~ In 0 l /\ r = ct /\ x = ((l, map inverse l), Some ct).
Proof.
  intros [Hz Hn] E. destruct (in_dec N.eq_dec 0 l) as [i|n].
  - rewrite (Hz i) in E. discriminate.
  - rewrite (Hn n) in E. injection E as <-. auto.
Qed.
Lemma records_none x l ct : records x l ct -> (snd x = None <-> In 0 l).
Proof.
  intros [Hz Hn]. split; [|assumption]. intros E. destruct (in_dec N.eq_dec 0 l) as [i|n]; [assumption|].
  rewrite (Hn n) in E. discriminate.
Qed.
Lemma inverse_pairs l : is_bytes l -> ~ In 0 l -> forall i, (i < length l)%nat ->
  fmul (nth i l 0) (nth i (map inverse l) 0) = 1.
Proof.
  intros B Hz i Hi. assert (Hb : nth i l 0 < 256) by (apply is_bytes_nth; assumption).
  assert (Hn : nth i l 0 <> 0) by (intros E; apply Hz; rewrite <- E; apply nth_In; assumption).
  rewrite (nth_indep (map inverse l) 0 (inverse 0)) by (rewrite map_length; assumption).
  rewrite (map_nth inverse). rewrite fmul_gf8 by (try assumption; apply inverse_byte; assumption).
  apply inverse_gf8; assumption.
Qed.

Lemma records_128 key pt : reg_ok key -> reg_ok pt ->
  records (aes_128_with_sbox_output key pt) (sbox_trace 4 key [pt]) (cipher 4 key pt).
Proof. intros. apply sv_is_records, save_128_is; assumption. Qed.
Lemma records_192 key pt : length key = 24%nat -> is_bytes key -> length pt = 32%nat -> is_bytes pt ->
  records (aes_192_with_sbox_output key pt) (sbox_trace 6 key (blocks2 pt)) (flat_map (cipher 6 key) (blocks2 pt)).
Proof. intros. unfold blocks2. cbn [flat_map]. rewrite app_nil_r. apply sv_is_records, save_192_is; assumption. Qed.
Lemma records_256 key pt : length key = 32%nat -> is_bytes key -> length pt = 32%nat -> is_bytes pt ->
  records (aes_256_with_sbox_output key pt) (sbox_trace 8 key (blocks2 pt)) (flat_map (cipher 8 key) (blocks2 pt)).
Proof. intros. unfold blocks2. cbn [flat_map]. rewrite app_nil_r. apply sv_is_records, save_256_is; assumption. Qed.

(** the three versions, together *)
Definition aes_n (nk : nat) : bytes -> bytes -> option bytes :=
  match nk with 4%nat => aes_128 | 6%nat => aes_192 | _ => aes_256 end.
Definition aes_n_save (nk : nat) : bytes -> bytes -> sv bytes :=
  match nk with 4%nat => aes_128_with_sbox_output | 6%nat => aes_192_with_sbox_output | _ => aes_256_with_sbox_output end.
Definition nblocks (nk : nat) : nat := match nk with 4%nat => 1 | _ => 2 end.
Definition nsboxes (nk : nat) : nat := match nk with 4%nat => 200 | 6%nat => 416 | _ => 500 end.
Definition blocks (nk : nat) (pt : bytes) : list bytes := match nk with 4%nat => [pt] | _ => blocks2 pt end.
Definition aes_in (nk : nat) (key pt : bytes) : Prop :=
  In nk [4;6;8]%nat /\ length key = (4 * nk)%nat /\ is_bytes key /\ length pt = (16 * nblocks nk)%nat /\ is_bytes pt.

Ltac aes_cases H :=
  destruct H as ([<-|[<-|[<-|[]]]] & Lk & Bk & Lp & Bp); cbn [aes_n aes_n_save blocks nblocks nsboxes Nat.mul Nat.add] in *.
Lemma aes_records nk key pt : aes_in nk key pt ->
  records (aes_n_save nk key pt) (sbox_trace nk key (blocks nk pt)) (flat_map (cipher nk key) (blocks nk pt)).
Proof.
  intros H. aes_cases H.
  - cbn [flat_map]. rewrite app_nil_r. apply records_128; split; assumption.
  - apply records_192; assumption.
  - apply records_256; assumption.
Qed.
Lemma aes_same nk key pt : aes_in nk key pt -> aes_n nk key pt = snd (aes_n_save nk key pt).
Proof.
  intros H. aes_cases H; [apply aes_128_same; split; assumption|apply aes_192_same; assumption|apply aes_256_same; assumption].
Qed.
Lemma aes_rk nk key pt : aes_in nk key pt -> rk_ok nk key.
Proof.
  intros H. aes_cases H; [apply keys_128; split; assumption|apply keys_192; assumption|apply keys_256; assumption].
Qed.
Lemma aes_blocks nk key pt : aes_in nk key pt -> Forall reg_ok (blocks nk pt).
Proof. intros H. aes_cases H; [repeat constructor; assumption|apply reg_blocks2; assumption..]. Qed.
Lemma aes_trace nk key pt : aes_in nk key pt ->
  length (sbox_trace nk key (blocks nk pt)) = nsboxes nk /\ is_bytes (sbox_trace nk key (blocks nk pt)).
Proof.
  intros H. pose proof (aes_rk nk key pt H) as R. pose proof (aes_blocks nk key pt H) as B.
  rewrite trace_length.
  assert (K : is_bytes (key_sbox_inputs nk key) /\
              (length (key_sbox_inputs nk key) + 16 * nr_of nk * length (blocks nk pt) = nsboxes nk)%nat).
  { clear R B. aes_cases H.
    - destruct (key_out_128 key (conj Lk Bk)) as [L I]. rewrite L. split; [assumption|reflexivity].
    - destruct (key_out_192 key Lk Bk) as [L I]. rewrite L. split; [assumption|reflexivity].
    - destruct (key_out_256 key Lk Bk) as [L I]. rewrite L. split; [assumption|reflexivity]. }
  split; [apply K|apply trace_bytes; [assumption|apply K|assumption]].
Qed.
Lemma aes_trace_zero nk key pt : aes_in nk key pt ->
  (In 0 (sbox_trace nk key (blocks nk pt)) <-> In 0 (all_sbox_inputs nk key (blocks nk pt))).
Proof.
  intros H. apply trace_zero; [apply (aes_rk nk key pt H)|unfold nr_of; lia|apply (aes_blocks nk key pt H)].
Qed.

Lemma aes_correct nk key pt ct : aes_in nk key pt -> aes_n nk key pt = Some ct -> ct = flat_map (cipher nk key) (blocks nk pt).
Proof. intros H E. rewrite aes_same in E by assumption. apply (records_some _ _ _ _ (aes_records _ _ _ H) E). Qed.
Lemma aes_none nk key pt : aes_in nk key pt ->
  (aes_n nk key pt = None <-> In 0 (all_sbox_inputs nk key (blocks nk pt))).
Proof.
  intros H. rewrite aes_same, <- aes_trace_zero by assumption. apply (records_none _ _ _ (aes_records _ _ _ H)).
Qed.
Lemma aes_pairs nk key pt ct : aes_in nk key pt -> aes_n nk key pt = Some ct ->
  exists s t, aes_n_save nk key pt = ((s, t), Some ct) /\ s = sbox_trace nk key (blocks nk pt) /\
    length s = nsboxes nk /\ length t = nsboxes nk /\
    forall i, (i < nsboxes nk)%nat -> nth i s 0 < 256 /\ nth i t 0 < 256 /\ fmul (nth i s 0) (nth i t 0) = 1.
Proof.
  intros H E. pose proof (aes_trace _ _ _ H) as [L B].
  rewrite aes_same in E by assumption.
  destruct (records_some _ _ _ _ (aes_records _ _ _ H) E) as (Z & -> & X).
  eexists _, _. split; [exact X|]. split; [reflexivity|]. split; [assumption|]. split; [rewrite map_length; assumption|].
  intros i Hi. split; [apply is_bytes_nth; assumption|]. split.
  - apply is_bytes_nth. clear - B. induction B; simpl; constructor; auto. apply inverse_byte; assumption.
  - apply inverse_pairs; [assumption..|]. rewrite L. assumption.
Qed.

Lemma aes_in_intro nk key pt : In nk [4;6;8]%nat -> length key = (4 * nk)%nat -> is_bytes key ->
  length pt = (16 * nblocks nk)%nat -> is_bytes pt -> aes_in nk key pt.
Proof. unfold aes_in. auto 10. Qed.
Lemma in468 : In 4%nat [4;6;8]%nat /\ In 6%nat [4;6;8]%nat /\ In 8%nat [4;6;8]%nat.
Proof. cbn. auto 10. Qed.
Lemma aes_correct_128 key pt ct : length key = 16%nat -> length pt = 16%nat -> is_bytes key -> is_bytes pt ->
  aes_128 key pt = Some ct -> ct = cipher 4 key pt.
Proof.
  intros Lk Lp Bk Bp E.
  rewrite (aes_correct 4 key pt ct (aes_in_intro 4 key pt (proj1 in468) Lk Bk Lp Bp) E).
  exact (app_nil_r (cipher 4 key pt)).
Qed.
Lemma aes_correct_192 key pt ct : length key = 24%nat -> length pt = 32%nat -> is_bytes key -> is_bytes pt ->
  aes_192 key pt = Some ct -> ct = cipher 6 key (firstn 16 pt) ++ cipher 6 key (skipn 16 pt).
Proof.
  intros Lk Lp Bk Bp E.
  rewrite (aes_correct 6 key pt ct (aes_in_intro 6 key pt (proj1 (proj2 in468)) Lk Bk Lp Bp) E).
  exact (f_equal (app (cipher 6 key (firstn 16 pt))) (app_nil_r (cipher 6 key (skipn 16 pt)))).
Qed.
Lemma aes_correct_256 key pt ct : length key = 32%nat -> length pt = 32%nat -> is_bytes key -> is_bytes pt ->
  aes_256 key pt = Some ct -> ct = cipher 8 key (firstn 16 pt) ++ cipher 8 key (skipn 16 pt).
Proof.
  intros Lk Lp Bk Bp E.
  rewrite (aes_correct 8 key pt ct (aes_in_intro 8 key pt (proj2 (proj2 in468)) Lk Bk Lp Bp) E).
  exact (f_equal (app (cipher 8 key (firstn 16 pt))) (app_nil_r (cipher 8 key (skipn 16 pt)))).
Qed.

Definition isbytesb (l : bytes) : bool := forallb (fun x => x <? 256) l.
Lemma isbytesb_ok l : isbytesb l = true -> is_bytes l.
Proof.
  intros H. apply Forall_forall. intros x Hx. unfold isbytesb in H. rewrite forallb_forall in H.
  apply N.ltb_lt. apply H. assumption.
Qed.
