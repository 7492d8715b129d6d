(** One repetition: what each step computes, as functions of a party's tape and of the corrections. *)
From Coq Require Import Arith NArith List Bool Lia.
From Verif Require Import Prelude FieldModel FieldSpec FieldApi FieldLin PolyModel Instances HashModel TreeModel TreeSpec TreeApi TreeRev AesModel AesApi AesShares BanquetModel ContainerModel ListSum BanquetHash.
Import ListNotations.

(** The parameter values for which signing and verification are proved correct (all built-in sets are among them). *)
Record inst_any (I : instance) (c : fctx) (nk : nat) : Prop := mkInstAny {
  io_nk : nk_ok nk;
  io_ks : key_size (i_aes I) = 4 * nk;
  io_sb : num_sboxes (i_aes I) = nsboxes nk;
  io_pt : pt_size I = 16 * nblocks nk;
  io_field : init_extension_field (lambda I) = Ok c;
  io_m1 : 1 <= m1 I; io_m2 : 1 <= m2 I;
  io_mm : m1 I * m2 I <= num_sboxes (i_aes I);
  io_seed : 1 <= seed_size I <= 32;
  io_leaves : leaves_ok (num_parties I);
  io_N : (N.of_nat (num_parties I) < 65536)%N }.
(** for signing the number of parties must also be one for which a seed tree can be built *)
Record inst_ok (I : instance) (c : fctx) (nk : nat) : Prop := mkInstOk { io_any :> inst_any I c nk; io_wide : wide (num_parties I) }.

Section Pure.
Variables (I : instance) (c : fctx) (nk : nat).
Hypothesis OK : inst_any I c nk.
Let HI := io_field _ _ _ OK.
Notation E := (elt (lambda I)).
Notation ks := (key_size (i_aes I)).
Notation sb := (num_sboxes (i_aes I)).
Notation lam := (lambda I).
Notation n := (num_parties I).
Notation M1 := (m1 I).
Notation M2 := (m2 I).

Lemma n_pos : 2 <= n. Proof. apply (io_leaves _ _ _ OK). Qed.
Lemma nsb_cases : (nsboxes nk <= 500). Proof. destruct (io_nk _ _ _ OK) as [<-|[<-|[<-|[]]]]; cbn; lia. Qed.
Lemma m2_small : M2 <= 500.
Proof. pose proof nsb_cases. pose proof (io_mm _ _ _ OK). pose proof (io_sb _ _ _ OK). pose proof (io_m1 _ _ _ OK). nia. Qed.
Lemma points_ok k : k <= 2 * M2 + 1 -> (N.of_nat k <= 21845)%N.
Proof. pose proof m2_small. lia. Qed.
Lemma idx_ok j k : j < M1 -> k < M2 -> j + M1 * k < sb.
Proof. intros. pose proof (io_mm _ _ _ OK). nia. Qed.

(** ** the portions of a tape *)
Definition tp_el (tape : bytes) (off : nat) : N := from_bytes (slice tape off lam).
Definition t_key (tape : bytes) : bytes := slice tape 0 ks.
Definition t_out (tape : bytes) : bytes := slice tape ks sb.
Definition t_s (tape : bytes) (j : nat) : N := tp_el tape (ks + sb + j * 2 * lam).
Definition t_t (tape : bytes) (j : nat) : N := tp_el tape (ks + sb + j * 2 * lam + lam).
Definition t_P (tape : bytes) (k : nat) : N := tp_el tape (ks + sb + M1 * 2 * lam + k * lam).
Definition tape_ok (tape : bytes) : Prop := str (tape_size I) tape.

Lemma t_key_str tape : tape_ok tape -> str ks (t_key tape).
Proof. intros [L B]. unfold tape_size in L. split; [apply slice_length; lia|apply is_bytes_slice; exact B]. Qed.
Lemma t_out_str tape : tape_ok tape -> str sb (t_out tape).
Proof. intros [L B]. unfold tape_size in L. split; [apply slice_length; lia|apply is_bytes_slice; exact B]. Qed.
Lemma t_s_elt tape j : tape_ok tape -> j < M1 -> E (t_s tape j).
Proof. intros [L B] Hj. unfold tape_size in L. apply (from_slice_elt I c HI); [exact B|]. nia. Qed.
Lemma t_t_elt tape j : tape_ok tape -> j < M1 -> E (t_t tape j).
Proof. intros [L B] Hj. unfold tape_size in L. apply (from_slice_elt I c HI); [exact B|]. nia. Qed.
Lemma t_P_elt tape k : tape_ok tape -> k <= M2 -> E (t_P tape k).
Proof. intros [L B] Hj. unfold tape_size in L. apply (from_slice_elt I c HI); [exact B|]. nia. Qed.

(** ** shares of the key and of the S-box outputs *)
Definition fixed (delta : bytes) (p : nat) (x : bytes) : bytes := if p =? 0 then xorl delta x else x.
Lemma fixed_str len delta p x : str len delta -> str len x -> str len (fixed delta p x).
Proof. intros A B. unfold fixed. destruct (p =? 0); [apply str_xorl; assumption|exact B]. Qed.
Lemma tape_shares_ok (tapes : nat -> bytes) off len : (forall p, p < n -> length (tapes p) = tape_size I) -> off + len <= tape_size I ->
  tape_shares I (map tapes (seq 0 n)) off len = Ok (map (fun p => slice (tapes p) off len) (seq 0 n)).
Proof.
  intros L H. unfold tape_shares. apply mapM_seq. intros p Hp. rewrite get_map_seq by exact Hp. cbn [bind]. apply read_ok. rewrite L; auto.
Qed.
Lemma fix_first_ok delta (f : nat -> bytes) : length (f 0) = length delta ->
  fix_first delta (map f (seq 0 n)) = Ok (map (fun p => fixed delta p (f p)) (seq 0 n)).
Proof.
  intros L. pose proof n_pos. unfold fix_first. rewrite get_map_seq by lia. cbn [bind]. rewrite xor_into_ok by congruence. cbn [bind].
  rewrite set_map_seq by lia. f_equal. apply map_seq_ext. intros i _. unfold fixed. destruct (Nat.eqb_spec i 0) as [->|]; reflexivity.
Qed.

(** ** the share evaluation of AES *)
Definition aes_out (pt : bytes) (keys ts : nat -> bytes) (p : nat) : bytes * bytes := Pn nk (p =? 0) (keys p) (ts p) pt.
Lemma by_key {A} (f g h : A) : by_key_size ks f g h = Ok (match nk with 4 => f | 6 => g | _ => h end).
Proof. rewrite (io_ks _ _ _ OK). destruct (io_nk _ _ _ OK) as [<-|[<-|[<-|[]]]]; reflexivity. Qed.
Lemma aes_shares_eq keys ts pt slen : aes_s_shares ks keys ts pt slen = aes_n_s_shares nk keys ts pt slen.
Proof. unfold aes_s_shares. rewrite by_key. cbn [bind]. destruct (io_nk _ _ _ OK) as [<-|[<-|[<-|[]]]]; reflexivity. Qed.
Lemma aes_shares_ok pt keys ts : str (16 * nblocks nk) pt -> (forall p, p < n -> str ks (keys p)) -> (forall p, p < n -> str sb (ts p)) ->
  aes_s_shares ks (map keys (seq 0 n)) (map ts (seq 0 n)) pt sb = Ok (map (aes_out pt keys ts) (seq 0 n)).
Proof.
  intros Hpt Hk Ht. rewrite aes_shares_eq, (s_shares_n nk pt (io_nk _ _ _ OK) Hpt). unfold s_shares. rewrite length_map_seq.
  apply mapM_seq. intros p Hp. rewrite !get_map_seq by exact Hp. cbn [bind]. unfold aes_out. rewrite (io_sb _ _ _ OK).
  apply (Pn_ok nk (p =? 0) (keys p) (ts p) pt (io_nk _ _ _ OK)); [rewrite <- (io_ks _ _ _ OK); auto|rewrite <- (io_sb _ _ _ OK); auto|exact Hpt].
Qed.
Lemma aes_out_str pt keys ts p : str (16 * nblocks nk) pt -> str ks (keys p) -> str sb (ts p) ->
  str (pt_size I) (fst (aes_out pt keys ts p)) /\ str sb (snd (aes_out pt keys ts p)).
Proof.
  intros Hpt Hk Ht. unfold aes_out. rewrite (io_pt _ _ _ OK), (io_sb _ _ _ OK).
  destruct (Pn_ok nk (p =? 0) (keys p) (ts p) pt (io_nk _ _ _ OK)) as (_ & A & B); [rewrite <- (io_ks _ _ _ OK); auto|rewrite <- (io_sb _ _ _ OK); auto|exact Hpt|]. auto.
Qed.

(** ** the points of the polynomials *)
Definition s_pt (rs : list N) (sh tape : bytes) (j k : nat) : N :=
  if k <? M2 then gmul c (nth j rs 0%N) (lift c (nth (j + M1 * k) sh 0%N)) else t_s tape j.
Definition t_pt (sh tape : bytes) (j k : nat) : N := if k <? M2 then lift c (nth (j + M1 * k) sh 0%N) else t_t tape j.
Definition pts_of (rs : list N) (sh_s sh_t tape : bytes) : list (list N) * list (list N) :=
  (map (fun j => map (s_pt rs sh_s tape j) (seq 0 (M2 + 1))) (seq 0 M1), map (fun j => map (t_pt sh_t tape j) (seq 0 (M2 + 1))) (seq 0 M1)).
Lemma s_pt_elt rs sh tape j k : str sb sh -> tape_ok tape -> j < M1 -> E (s_pt rs sh tape j k).
Proof. intros S T Hj. unfold s_pt. destruct (k <? M2); [apply (E_mul lam c HI)|apply t_s_elt; assumption]. Qed.
Lemma t_pt_elt sh tape j k : str sb sh -> tape_ok tape -> j < M1 -> E (t_pt sh tape j k).
Proof.
  intros [S B] T Hj. unfold t_pt. destruct (Nat.ltb_spec k M2); [|apply t_t_elt; assumption].
  apply (lift_elt lam c HI). apply is_bytes_nth. exact B.
Qed.
Lemma lift_shares_ok sh : length sh = sb -> lift_shares I c sh = Ok (map (fun i => lift c (nth i sh 0%N)) (seq 0 sb)).
Proof.
  intros L. unfold lift_shares. apply mapM_seq. intros i Hi. rewrite (get_ok _ _ 0%N) by (rewrite L; exact Hi). reflexivity.
Qed.
Lemma party_points_ok rs sh_s sh_t tape : length rs = M1 -> length sh_s = sb -> length sh_t = sb -> tape_ok tape ->
  party_points I c rs sh_s sh_t tape = Ok (pts_of rs sh_s sh_t tape).
Proof.
  intros Lr Ls Lt [Lp Bp]. unfold party_points. rewrite !lift_shares_ok by assumption. cbn [bind].
  rewrite (mapM_seq _ (fun j => (map (s_pt rs sh_s tape j) (seq 0 (M2 + 1)), map (t_pt sh_t tape j) (seq 0 (M2 + 1))))).
  - cbn [bind]. rewrite !map_map. reflexivity.
  - intros j Hj. rewrite (get_ok rs j 0%N) by lia. cbn [bind].
    rewrite (mapM_seq _ (fun k => gmul c (nth j rs 0%N) (lift c (nth (j + M1 * k) sh_s 0%N)))).
    2:{ intros k Hk. rewrite get_map_seq by (apply idx_ok; assumption). reflexivity. }
    cbn [bind]. rewrite (mapM_seq _ (fun k => lift c (nth (j + M1 * k) sh_t 0%N))).
    2:{ intros k Hk. rewrite get_map_seq by (apply idx_ok; assumption). reflexivity. }
    cbn [bind]. unfold tape_size in Lp.
    assert (Hb : ks + sb + j * 2 * lam + 2 * lam <= length tape) by nia.
    rewrite read_ok by exact Hb. cbn [bind].
    rewrite !(elem_at_ok I c HI) by (rewrite slice_length by exact Hb; lia). cbn [bind]. do 2 f_equal.
    + rewrite Nat.add_1_r, seq_S, map_app. f_equal.
      * apply map_seq_ext. intros k Hk. unfold s_pt. destruct (Nat.ltb_spec k M2); [reflexivity|lia].
      * cbn [map Nat.add]. unfold s_pt. rewrite Nat.ltb_irrefl. unfold t_s, tp_el. f_equal. f_equal.
        apply (list_eq_nth (slice _ _ _)); [rewrite !slice_length by (rewrite ?slice_length by exact Hb; lia); reflexivity|].
        intros i Hi d. rewrite slice_length in Hi by (rewrite slice_length by exact Hb; lia). rewrite !nth_slice by lia. f_equal; lia.
    + rewrite Nat.add_1_r, seq_S, map_app. f_equal.
      * apply map_seq_ext. intros k Hk. unfold t_pt. destruct (Nat.ltb_spec k M2); [reflexivity|lia].
      * cbn [map Nat.add]. unfold t_pt. rewrite Nat.ltb_irrefl. unfold t_t, tp_el. f_equal. f_equal.
        apply (list_eq_nth (slice _ _ _)); [rewrite !slice_length by (rewrite ?slice_length by exact Hb; lia); reflexivity|].
        intros i Hi d. rewrite slice_length in Hi by (rewrite slice_length by exact Hb; lia). rewrite !nth_slice by lia. f_equal; lia.
Qed.

(** ** the shares of P *)
Definition sum_r (rs : list N) : N := gsum M1 (fun j => nth j rs 0%N).
Definition P_pt (rs : list N) (p : nat) (tape : bytes) (k : nat) : N :=
  if k <? M2 then (if p =? 0 then sum_r rs else 0%N) else t_P tape (k - M2).
Definition P_adj (rs deltas : list N) (p : nat) (tape : bytes) (k : nat) : N :=
  if (p =? 0) && negb (k <? M2) then gadd (P_pt rs p tape k) (nth (k - M2) deltas 0%N) else P_pt rs p tape k.
Lemma sum_r_elt rs : Forall E rs -> E (sum_r rs).
Proof. intros H. apply (E_gsum lam c HI). intros. apply (E_nth lam c HI). exact H. Qed.
Lemma P_pt_elt rs p tape k : Forall E rs -> tape_ok tape -> k < 2 * M2 + 1 -> E (P_pt rs p tape k).
Proof.
  intros Hr T Hk. unfold P_pt. destruct (Nat.ltb_spec k M2); [|apply t_P_elt; [exact T|lia]].
  destruct (p =? 0); [apply sum_r_elt; exact Hr|apply (E_0 lam c HI)].
Qed.
Lemma P_adj_elt rs ds p tape k : Forall E rs -> Forall E ds -> tape_ok tape -> k < 2 * M2 + 1 -> E (P_adj rs ds p tape k).
Proof.
  intros Hr Hd T Hk. unfold P_adj. destruct (_ && _); [apply (E_add lam c HI)|]; try (apply P_pt_elt; assumption). apply (E_nth lam c HI). exact Hd.
Qed.
Lemma foldM_gsum (l : list N) m : length l = m -> foldM (fun acc j => do r <- get l j; Ok (gadd acc r)) (seq 0 m) 0%N = Ok (gsum m (fun j => nth j l 0%N)).
Proof.
  intros L. rewrite (foldM_xor (get l) (fun j => nth j l 0%N)); [reflexivity|]. intros j Hj. apply in_seq in Hj. apply get_ok. lia.
Qed.
Lemma map_repeat_seq {A} (x : A) m s : map (fun _ : nat => x) (seq s m) = repeat x m.
Proof. revert s; induction m; intros s; cbn [seq map repeat]; f_equal; auto. Qed.
Lemma P_share_ok rs p tape : length rs = M1 -> tape_ok tape -> P_share I c rs p tape = Ok (map (P_pt rs p tape) (seq 0 (2 * M2 + 1))).
Proof.
  intros Lr [Lp Bp]. unfold P_share. rewrite foldM_gsum by exact Lr. cbn [bind]. unfold tape_size in Lp.
  assert (Hb : ks + sb + M1 * 2 * lam + (M2 + 1) * lam <= length tape) by lia.
  rewrite read_ok by exact Hb. cbn [bind]. rewrite (mapM_seq _ (t_P tape)).
  - cbn [bind]. f_equal.
    transitivity (map (P_pt rs p tape) (seq 0 M2) ++ map (P_pt rs p tape) (seq M2 (M2 + 1))).
    2:{ rewrite <- map_app. f_equal. replace (2 * M2 + 1) with (M2 + (M2 + 1)) by lia. symmetry. apply (seq_app M2 (M2 + 1) 0). }
    f_equal.
    + rewrite (map_seq_ext (P_pt rs p tape) (fun _ => if p =? 0 then sum_r rs else 0%N)).
      * rewrite map_repeat_seq. destruct (p =? 0); reflexivity.
      * intros k Hk. unfold P_pt. destruct (Nat.ltb_spec k M2); [reflexivity|lia].
    + assert (G : forall q s, map (t_P tape) (seq s q) = map (P_pt rs p tape) (seq (M2 + s) q)).
      { induction q; intros s; [reflexivity|]. cbn [seq map]. rewrite IHq, Nat.add_succ_r. f_equal. unfold P_pt.
        destruct (Nat.ltb_spec (M2 + s) M2); [lia|]. f_equal. lia. }
      rewrite G, Nat.add_0_r. reflexivity.
  - intros k Hk. rewrite (elem_at_ok I c HI) by (rewrite slice_length by exact Hb; nia). unfold t_P, tp_el. do 2 f_equal.
    assert (k * lam + lam <= (M2 + 1) * lam) by nia.
    apply (list_eq_nth (slice _ _ _)); [rewrite !slice_length by (rewrite ?slice_length by exact Hb; lia); reflexivity|].
    intros i Hi d. rewrite slice_length in Hi by (rewrite slice_length by exact Hb; lia). rewrite !nth_slice by lia. f_equal; lia.
Qed.
Lemma adjust_row ds (f : nat -> N) : length ds = M2 + 1 -> forall m, m <= M2 + 1 ->
  foldM (fun s i => do d <- get ds i; do x <- get s (M2 + i); set s (M2 + i) (gadd x d)) (seq 0 m) (map f (seq 0 (2 * M2 + 1))) =
  Ok (map (fun k => if (M2 <=? k) && (k <? M2 + m) then gadd (f k) (nth (k - M2) ds 0%N) else f k) (seq 0 (2 * M2 + 1))).
Proof.
  intros Ld. induction m; intros Hm.
  - cbn [seq foldM]. f_equal. apply map_seq_ext. intros k _. destruct (Nat.leb_spec M2 k), (Nat.ltb_spec k (M2 + 0)); cbn; auto; lia.
  - rewrite seq_S. cbn [Nat.add]. rewrite PolyProofs.foldM_app, IHm by lia. cbn [bind foldM].
    rewrite (get_ok ds m 0%N) by lia. cbn [bind]. rewrite get_map_seq by lia. cbn [bind]. rewrite set_map_seq by lia. cbn [bind]. f_equal.
    apply map_seq_ext. intros k Hk. destruct (Nat.eqb_spec k (M2 + m)) as [->|Hne].
    + replace (M2 + m - M2) with m by lia.
      destruct (Nat.leb_spec M2 (M2 + m)), (Nat.ltb_spec (M2 + m) (M2 + m)), (Nat.ltb_spec (M2 + m) (M2 + S m)); cbn; auto; lia.
    + destruct (Nat.leb_spec M2 k), (Nat.ltb_spec k (M2 + m)), (Nat.ltb_spec k (M2 + S m)); cbn; auto; lia.
Qed.
Lemma adjust_first_ok ds (f : nat -> list N) (g : nat -> N) : length ds = M2 + 1 -> f 0 = map g (seq 0 (2 * M2 + 1)) ->
  adjust_first I ds (map f (seq 0 n)) =
  Ok (map (fun p => if p =? 0 then map (fun k => if negb (k <? M2) then gadd (g k) (nth (k - M2) ds 0%N) else g k) (seq 0 (2 * M2 + 1)) else f p) (seq 0 n)).
Proof.
  intros Ld Hf. pose proof n_pos. unfold adjust_first. rewrite get_map_seq by lia. cbn [bind]. rewrite Hf, adjust_row by (auto; lia). cbn [bind].
  rewrite set_map_seq by lia. f_equal. apply map_seq_ext. intros p _. destruct (p =? 0); [|reflexivity]. apply map_seq_ext. intros k Hk.
  destruct (Nat.leb_spec M2 k), (Nat.ltb_spec k (M2 + (M2 + 1))), (Nat.ltb_spec k M2); cbn; auto; lia.
Qed.
Lemma adjust_shares rs ds (tapes : nat -> bytes) : length ds = M2 + 1 ->
  adjust_first I ds (map (fun p => map (P_pt rs p (tapes p)) (seq 0 (2 * M2 + 1))) (seq 0 n)) =
  Ok (map (fun p => map (P_adj rs ds p (tapes p)) (seq 0 (2 * M2 + 1))) (seq 0 n)).
Proof.
  intros Ld. rewrite (adjust_first_ok ds _ (P_pt rs 0 (tapes 0))) by auto. f_equal. apply map_seq_ext. intros p _. unfold P_adj.
  destruct (Nat.eqb_spec p 0) as [->|]; reflexivity.
Qed.

(** ** the shares of the opened values *)
Definition xs1 := get_first_n_field_elements c (M2 + 1).
Definition xs2 := get_first_n_field_elements c (2 * M2 + 1).
Lemma xs1_ok : NoDup xs1 /\ length xs1 = M2 + 1 /\ Forall (fun x => x <> 0%N /\ E x) xs1.
Proof. apply (api_points lam c HI). apply points_ok. lia. Qed.
Lemma xs2_ok : NoDup xs2 /\ length xs2 = 2 * M2 + 1 /\ Forall (fun x => x <> 0%N /\ E x) xs2.
Proof. apply (api_points lam c HI). apply points_ok. lia. Qed.
Lemma lagr1 : exists pre, lagr lam c xs1 pre.
Proof.
  destruct xs1_ok as (A & B & C). apply (lagr_exists lam c HI); [exact A|lia|]. eapply Forall_impl; [|exact C]. intros x [_ X]. exact X.
Qed.
Lemma lagr2 : exists pre, lagr lam c xs2 pre.
Proof.
  destruct xs2_ok as (A & B & C). apply (lagr_exists lam c HI); [exact A|lia|]. eapply Forall_impl; [|exact C]. intros x [_ X]. exact X.
Qed.
Lemma lagrange_at_ok xs pre R : lagr lam c xs pre -> E R -> lagrange_at_R c pre (length xs) R = Ok (map (fun k => lag c pre k R) (seq 0 (length xs))).
Proof.
  intros L HR. unfold lagrange_at_R. apply mapM_seq. intros k Hk. rewrite (get_ok pre k []) by (rewrite (lg_len _ _ _ _ L); exact Hk). cbn [bind].
  f_equal. unfold lag. apply (api_eval lam c HI); [apply (lg_row _ _ _ _ L); exact Hk|exact HR].
Qed.
Definition inner (m : nat) (l : nat -> N) (f : nat -> N) : N := gsum m (fun k => gmul c (l k) (f k)).
Definition view_of (l1 l2 : nat -> N) (s t : nat -> nat -> N) (P : nat -> N) : view :=
  ((map (fun j => inner (M2 + 1) l1 (s j)) (seq 0 M1), map (fun j => inner (M2 + 1) l1 (t j)) (seq 0 M1)), inner (2 * M2 + 1) l2 P).
Lemma dot_map m (l f : nat -> N) : dot_product c (map l (seq 0 m)) (map f (seq 0 m)) = Ok (inner m l f).
Proof.
  rewrite (dot_gsum lam c HI _ _ m) by apply length_map_seq. f_equal. apply gsum_ext. intros k Hk. rewrite !nth_map_seq by exact Hk. reflexivity.
Qed.
Lemma party_view_ok l1 l2 s t P :
  party_view I c (map l1 (seq 0 (M2 + 1))) (map l2 (seq 0 (2 * M2 + 1)))
    (map (fun j => map (s j) (seq 0 (M2 + 1))) (seq 0 M1), map (fun j => map (t j) (seq 0 (M2 + 1))) (seq 0 M1)) (map P (seq 0 (2 * M2 + 1))) =
  Ok (view_of l1 l2 s t P).
Proof.
  unfold party_view. cbn [fst snd]. rewrite (mapM_seq _ (fun j => inner (M2 + 1) l1 (s j))).
  2:{ intros j Hj. rewrite get_map_seq by exact Hj. cbn [bind]. apply dot_map. }
  cbn [bind]. rewrite (mapM_seq _ (fun j => inner (M2 + 1) l1 (t j))).
  2:{ intros j Hj. rewrite get_map_seq by exact Hj. cbn [bind]. apply dot_map. }
  cbn [bind]. rewrite dot_map. reflexivity.
Qed.
Lemma inner_elt m l f : E (inner m l f).
Proof. apply (E_gsum lam c HI). intros. apply (E_mul lam c HI). Qed.
Lemma inner_ext m l f g : (forall k, k < m -> f k = g k) -> inner m l f = inner m l g.
Proof. intros H. apply gsum_ext. intros k Hk. rewrite H by exact Hk. reflexivity. Qed.
Lemma inner_sum m l q (f : nat -> nat -> N) : (forall k, k < m -> E (l k)) -> (forall p k, p < q -> k < m -> E (f p k)) ->
  gsum q (fun p => inner m l (f p)) = inner m l (fun k => gsum q (fun p => f p k)).
Proof.
  intros Hl Hf. unfold inner. rewrite gsum_swap. apply gsum_ext. intros k Hk. symmetry. apply (gmul_gsum lam c HI); [apply Hl; exact Hk|]. intros. apply Hf; assumption.
Qed.
Lemma accumulate_ok a b : length a = M1 -> length b = M1 -> accumulate I c a b = Ok (gsum M1 (fun j => gmul c (nth j a 0%N) (nth j b 0%N))).
Proof.
  intros La Lb. unfold accumulate.
  rewrite (PolyProofs.foldM_ok_eq _ (fun acc j => gadd acc (gmul c (nth j a 0%N) (nth j b 0%N)))).
  - f_equal. unfold gadd. rewrite (fold_left_xor (fun j => gmul c (nth j a 0%N) (nth j b 0%N))). reflexivity.
  - intros acc j Hj. apply in_seq in Hj. rewrite (get_ok a j 0%N), (get_ok b j 0%N) by lia. reflexivity.
Qed.
End Pure.
