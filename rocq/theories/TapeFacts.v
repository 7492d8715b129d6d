(** The layout of a party's random tape: the values the code reads from it determine it, and any values are possible. *)
From Coq Require Import Arith NArith ZArith List Bool Lia.
From Verif Require Import Prelude FieldModel FieldApi FieldSpec Instances HashModel TreeModel AesBase AesShares ListSum  ContainerModel BanquetModel BanquetHash BanquetPure BanquetApi FreeSpec.
Import ListNotations.

(** a tape holding a key share, shares of the S-box outputs, the pairs of masks and the points of P, in this order *)
Definition tape_layout (lam : nat) (k t : bytes) (ms : list (N * N)) (ps : list N) : bytes :=
  k ++ t ++ concat (map (fun ab => to_bytes lam (fst ab) ++ to_bytes lam (snd ab)) ms) ++ concat (map (to_bytes lam) ps).
Record tape_values (I : instance) (k t : bytes) (ms : list (N * N)) (ps : list N) : Prop := mkTV {
  tv_k : length k = key_size (i_aes I) /\ is_bytes k;
  tv_t : length t = num_sboxes (i_aes I) /\ is_bytes t;
  tv_ms : length ms = m1 I; tv_me : Forall (fun ab => elt (lambda I) (fst ab) /\ elt (lambda I) (snd ab)) ms;
  tv_ps : length ps = m2 I + 1; tv_pe : Forall (elt (lambda I)) ps }.

Lemma slice_mid (m a b d : bytes) o k : m = a ++ b ++ d -> o = length a -> k = length b -> slice m o k = b.
Proof. intros -> -> ->. unfold slice. rewrite skipn_app, skipn_all, Nat.sub_diag. cbn [app skipn]. rewrite firstn_app, firstn_all, Nat.sub_diag, firstn_O. apply app_nil_r. Qed.
Lemma concat_blocks {A} (f : A -> bytes) w l : (forall x, In x l -> length (f x) = w) -> length (concat (map f l)) = length l * w.
Proof. intros Hf. induction l; [reflexivity|]. cbn [map concat length Nat.mul]. rewrite app_length, Hf by (left; reflexivity). f_equal. apply IHl. intros x Hx. apply Hf. right. exact Hx. Qed.
Lemma slice_slices (m : bytes) w k : forall o, o + k * w <= length m -> concat (map (fun j => slice m (o + j * w) w) (seq 0 k)) = slice m o (k * w).
Proof.
  induction k; intros o L; [reflexivity|]. cbn [Nat.mul] in *. rewrite seq_S, map_app, concat_app. cbn [Nat.add map concat]. rewrite app_nil_r, IHk by lia.
  apply list_eq_nth; [rewrite app_length, !slice_length by lia; lia|]. intros i Hi d. rewrite app_length, !slice_length in Hi by lia.
  rewrite nth_slice by lia. destruct (Nat.ltb_spec i (k * w)).
  - rewrite app_nth1 by (rewrite slice_length; lia). apply nth_slice. exact H.
  - rewrite app_nth2 by (rewrite slice_length; lia). rewrite slice_length by lia. rewrite nth_slice by lia. f_equal. lia.
Qed.
Lemma slice_app (m : bytes) a b o : o + a + b <= length m -> slice m o a ++ slice m (o + a) b = slice m o (a + b).
Proof.
  intros L. apply list_eq_nth; [rewrite app_length, !slice_length by lia; lia|]. intros i Hi d. rewrite app_length, !slice_length in Hi by lia.
  rewrite nth_slice by lia. destruct (Nat.ltb_spec i a).
  - rewrite app_nth1 by (rewrite slice_length; lia). apply nth_slice. exact H.
  - rewrite app_nth2 by (rewrite slice_length; lia). rewrite slice_length by lia. rewrite nth_slice by lia. f_equal. lia.
Qed.

Section Tape.
Variables (I : instance) (c : fctx) (nk : nat).
Hypothesis OK : inst_any I c nk.
Let HI := io_field _ _ _ OK.
Notation lam := (lambda I).
Notation ks := (key_size (i_aes I)).
Notation sb := (num_sboxes (i_aes I)).

Lemma to_len x : length (to_bytes lam x) = lam.
Proof. apply le_bytes_length. Qed.
Lemma from_to x : elt lam x -> from_bytes (to_bytes lam x) = x.
Proof. intros E. apply (api_bytes _ _ HI). exact E. Qed.
Lemma two_len (ab : N * N) : length (to_bytes lam (fst ab) ++ to_bytes lam (snd ab)) = 2 * lam.
Proof. rewrite app_length, !to_len. lia. Qed.

Section Values.
Variables (k t : bytes) (ms : list (N * N)) (ps : list N).
Hypothesis V : tape_values I k t ms ps.
Let tape := tape_layout lam k t ms ps.
Lemma layout_ok : tape_ok I tape.
Proof.
  destruct V as [[K1 K2] [T1 T2] M1 M2 P1 P2]. split.
  - unfold tape, tape_layout, tape_size. rewrite !app_length, (concat_blocks _ (2 * lam)), (concat_blocks _ lam) by (intros; apply two_len || apply to_len). rewrite K1, T1, M1, P1. lia.
  - unfold tape, tape_layout. apply is_bytes_app; [exact K2|]. apply is_bytes_app; [exact T2|]. apply is_bytes_app.
    + apply Forall_concat, Forall_map, Forall_forall. intros x _. apply is_bytes_app; apply le_bytes_is_bytes.
    + apply Forall_concat, Forall_map, Forall_forall. intros x _. apply le_bytes_is_bytes.
Qed.
Lemma layout_key : t_key I tape = k.
Proof. apply (slice_mid _ [] k (t ++ concat (map (fun ab => to_bytes lam (fst ab) ++ to_bytes lam (snd ab)) ms) ++ concat (map (to_bytes lam) ps))); [reflexivity|reflexivity|symmetry; apply V]. Qed.
Lemma layout_out : t_out I tape = t.
Proof. apply (slice_mid _ k t (concat (map (fun ab => to_bytes lam (fst ab) ++ to_bytes lam (snd ab)) ms) ++ concat (map (to_bytes lam) ps))); [reflexivity|symmetry; apply V|symmetry; apply V]. Qed.
Lemma layout_st j : j < m1 I -> t_s I tape j = fst (nth j ms (0, 0)%N) /\ t_t I tape j = snd (nth j ms (0, 0)%N).
Proof.
  intros Hj. destruct V as [[K1 K2] [T1 T2] M1 M2 P1 P2]. rewrite <- M1 in Hj. destruct (nth_split ms (0, 0)%N Hj) as (a & d & E & L).
  assert (Ex : elt lam (fst (nth j ms (0, 0)%N)) /\ elt lam (snd (nth j ms (0, 0)%N))) by (rewrite Forall_forall in M2; apply M2, nth_In; exact Hj).
  set (x := nth j ms (0, 0)%N) in *. clearbody x. destruct Ex as [Ex Ey].
  assert (La : length (concat (map (fun ab => to_bytes lam (fst ab) ++ to_bytes lam (snd ab)) a)) = j * (2 * lam)) by (rewrite (concat_blocks _ (2 * lam)) by (intros; apply two_len); rewrite L; reflexivity).
  assert (ET : tape = (k ++ t ++ concat (map (fun ab => to_bytes lam (fst ab) ++ to_bytes lam (snd ab)) a)) ++ to_bytes lam (fst x) ++ to_bytes lam (snd x) ++
     concat (map (fun ab => to_bytes lam (fst ab) ++ to_bytes lam (snd ab)) d) ++ concat (map (to_bytes lam) ps)).
  { unfold tape, tape_layout. rewrite E, map_app, concat_app. cbn [map concat]. rewrite <- !app_assoc. reflexivity. }
  split; unfold t_s, t_t, tp_el.
  - rewrite (slice_mid _ _ _ _ _ _ ET); [apply from_to; exact Ex|rewrite !app_length, La; lia|symmetry; apply to_len].
  - rewrite (slice_mid _ ((k ++ t ++ concat (map (fun ab => to_bytes lam (fst ab) ++ to_bytes lam (snd ab)) a)) ++ to_bytes lam (fst x)) (to_bytes lam (snd x))
      (concat (map (fun ab => to_bytes lam (fst ab) ++ to_bytes lam (snd ab)) d) ++ concat (map (to_bytes lam) ps))).
    + apply from_to; exact Ey. + rewrite ET, <- !app_assoc. reflexivity. + rewrite !app_length, La, to_len. lia. + symmetry; apply to_len.
Qed.
Lemma layout_P i : i <= m2 I -> t_P I tape i = nth i ps 0%N.
Proof.
  intros Hj. destruct V as [[K1 K2] [T1 T2] M1 M2 P1 P2]. assert (Hi : i < length ps) by lia. destruct (nth_split ps 0%N Hi) as (a & d & E & L).
  assert (Ex : elt lam (nth i ps 0%N)) by (rewrite Forall_forall in P2; apply P2, nth_In; exact Hi).
  set (x := nth i ps 0%N) in *. clearbody x.
  unfold t_P, tp_el. rewrite (slice_mid _ (k ++ t ++ concat (map (fun ab => to_bytes lam (fst ab) ++ to_bytes lam (snd ab)) ms) ++ concat (map (to_bytes lam) a)) (to_bytes lam x) (concat (map (to_bytes lam) d))).
  - apply from_to; exact Ex.
  - unfold tape, tape_layout. rewrite E, map_app, concat_app. cbn [map concat]. rewrite <- !app_assoc. reflexivity.
  - rewrite !app_length, (concat_blocks _ (2 * lam)), (concat_blocks _ lam) by (intros; apply two_len || apply to_len). lia.
  - symmetry; apply to_len.
Qed.
End Values.

Lemma layout_onto tape : tape_ok I tape -> exists k t ms ps, tape_values I k t ms ps /\ tape = tape_layout lam k t ms ps.
Proof.
  intros T. exists (t_key I tape), (t_out I tape), (map (fun j => (t_s I tape j, t_t I tape j)) (seq 0 (m1 I))), (map (t_P I tape) (seq 0 (m2 I + 1))).
  split.
  - constructor; [apply (t_key_str I); exact T|apply (t_out_str I); exact T|rewrite map_length; apply seq_length| |rewrite map_length; apply seq_length|].
    + apply Forall_map, Forall_forall. intros j Hj. apply in_seq in Hj. split; [apply (t_s_elt I c nk OK)|apply (t_t_elt I c nk OK)]; auto; lia.
    + apply Forall_map, Forall_forall. intros j Hj. apply in_seq in Hj. apply (t_P_elt I c nk OK); auto; lia.
  - destruct T as [L B]. unfold tape_size in L. unfold tape_layout. rewrite !map_map. cbn [fst snd].
    assert (TF : forall o, o + lam <= length tape -> to_bytes lam (from_bytes (slice tape o lam)) = slice tape o lam).
    { intros o Ho. apply (api_bytes _ _ HI); [apply is_bytes_slice; exact B|apply slice_length; exact Ho]. }
    rewrite (map_ext_in _ (fun j => slice tape (ks + sb + j * (2 * lam)) (2 * lam))).
    2:{ intros j Hj. apply in_seq in Hj. assert (ks + sb + j * (2 * lam) + 2 * lam <= length tape) by nia. unfold t_s, t_t, tp_el. replace (j * 2 * lam) with (j * (2 * lam)) by lia.
        rewrite !TF by lia. rewrite slice_app by lia. f_equal. lia. }
    rewrite (map_ext_in (fun x => to_bytes lam (t_P I tape x)) (fun j => slice tape (ks + sb + m1 I * (2 * lam) + j * lam) lam)).
    2:{ intros j Hj. apply in_seq in Hj. assert (ks + sb + m1 I * (2 * lam) + j * lam + lam <= length tape) by nia. unfold t_P, tp_el. replace (m1 I * 2 * lam) with (m1 I * (2 * lam)) by lia. apply TF. lia. }
    rewrite !slice_slices by lia. unfold t_key, t_out. rewrite slice_app by lia. rewrite (slice_app tape sb) by lia.
    change ks with (0 + ks) at 2. rewrite slice_app by lia. unfold slice. cbn [skipn]. rewrite firstn_all2 by lia. reflexivity.
Qed.
End Tape.

(** the statement used in PropHash *)
Lemma tape_partition I : regular I -> forall c k t ms ps, init_extension_field (lambda I) = Ok c -> tape_values I k t ms ps ->
  let tape := tape_layout (lambda I) k t ms ps in
  length tape = tape_size I /\ is_bytes tape /\
  (forall tapes p, length tapes = num_parties I -> Forall (fun x => length x = tape_size I) tapes -> nth_error tapes p = Some tape ->
     (do l <- tape_shares I tapes 0 (key_size (i_aes I)); get l p) = Ok k /\
     (do l <- tape_shares I tapes (key_size (i_aes I)) (num_sboxes (i_aes I)); get l p) = Ok t) /\
  (forall rs sh_s sh_t, length rs = m1 I -> length sh_s = num_sboxes (i_aes I) -> length sh_t = num_sboxes (i_aes I) ->
     exists ss ts, party_points I c rs sh_s sh_t tape = Ok (ss, ts) /\
       map (fun row => nth (m2 I) row 0%N) ss = map fst ms /\ map (fun row => nth (m2 I) row 0%N) ts = map snd ms) /\
  (forall rs p, length rs = m1 I -> exists first, P_share I c rs p tape = Ok (first ++ ps) /\ length first = m2 I).
Proof.
  intros HB c k t ms ps Hc V tape. destruct (regular_inst_ok I HB) as [c' OK]. assert (c' = c) by (pose proof (io_field _ _ _ OK); congruence). subst c'.
  pose proof (layout_ok I _ _ _ _ V) as T. fold tape in T. destruct T as [TL TB]. split; [exact TL|]. split; [exact TB|]. split; [|split].
  - intros tapes p L F E. assert (Hp : p < num_parties I) by (rewrite <- L; apply nth_error_Some; congruence).
    assert (ET : tapes = map (fun i => nth i tapes []) (seq 0 (num_parties I))).
    { rewrite <- L. clear. induction tapes; [reflexivity|]. cbn [length seq map nth]. f_equal. rewrite <- seq_shift, map_map. exact IHtapes. }
    assert (EN : nth p tapes [] = tape) by (apply nth_error_nth; exact E).
    assert (FL : forall i, i < num_parties I -> length (nth i tapes []) = tape_size I).
    { intros i Hi. rewrite Forall_forall in F. apply F, nth_In. lia. }
    rewrite ET. rewrite !tape_shares_ok by (exact FL || (unfold tape_size; lia)). cbn [bind]. rewrite !get_map_seq by exact Hp. rewrite EN.
    split; f_equal; [apply (layout_key I _ _ _ _ V)|apply (layout_out I _ _ _ _ V)].
  - intros rs sh_s sh_t Lr Ls Lt. eexists _, _. split; [apply (party_points_ok I c _ OK); try assumption; split; assumption|].
    rewrite !map_map. assert (Em : forall {B} (f : N * N -> B), map f ms = map (fun j => f (nth j ms (0, 0)%N)) (seq 0 (m1 I))).
    { intros B f. rewrite <- (tv_ms _ _ _ _ _ V). clear. induction ms; [reflexivity|]. cbn [length seq map nth]. f_equal. rewrite <- seq_shift, map_map. exact IHms. }
    rewrite !Em. split; apply map_seq_ext; intros j Hj; rewrite nth_map_seq by lia; unfold s_pt, t_pt; rewrite Nat.ltb_irrefl; apply (layout_st I c _ OK _ _ _ _ V j (proj2 Hj)).
  - intros rs p Lr. exists (map (P_pt I rs p tape) (seq 0 (m2 I))). split; [|rewrite map_length; apply seq_length].
    rewrite (P_share_ok I c _ OK) by (try assumption; split; assumption). f_equal. replace (2 * m2 I + 1) with (m2 I + (m2 I + 1)) by lia.
    rewrite seq_app, map_app. f_equal. cbn [Nat.add].
    assert (Ep : ps = map (fun j => nth j ps 0%N) (seq 0 (m2 I + 1))).
    { rewrite <- (tv_ps _ _ _ _ _ V). clear. induction ps; [reflexivity|]. cbn [length seq map nth]. f_equal. rewrite <- seq_shift, map_map. exact IHps. }
    rewrite Ep. assert (G : forall q s, s + q <= m2 I + 1 -> map (P_pt I rs p tape) (seq (m2 I + s) q) = map (fun j => nth j ps 0%N) (seq s q)).
    { induction q; intros s Hs; [reflexivity|]. cbn [seq map]. rewrite <- IHq by lia. rewrite Nat.add_succ_r. f_equal. unfold P_pt.
      destruct (Nat.ltb_spec (m2 I + s) (m2 I)); [lia|]. replace (m2 I + s - m2 I) with s by lia. apply (layout_P I c _ OK _ _ _ _ V). lia. }
    rewrite <- G by lia. rewrite Nat.add_0_r. reflexivity.
Qed.
Lemma tape_onto I : regular I -> forall tape, length tape = tape_size I -> is_bytes tape -> exists k t ms ps, tape_values I k t ms ps /\ tape = tape_layout (lambda I) k t ms ps.
Proof. intros HB tape L B. destruct (regular_inst_ok I HB) as [c OK]. apply (layout_onto I c _ OK). split; assumption. Qed.
