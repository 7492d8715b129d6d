(** The S-box inputs determine the key (C60), and so nearly do the cache lines they are in. *)
From Coq Require Import Arith NArith List Bool Lia.
From Verif Require Import Prelude AesSpec AesModel AesBase AesKs AesPlain AesApi LeakSpec.
Import ListNotations.
Local Open Scope N_scope.

Lemma expand_app nk n : forall i ws, exists l, expand nk i n ws = l ++ ws.
Proof.
  induction n as [|n IH]; intros i ws; [exists []; reflexivity|]. cbn [expand]. destruct (IH (S i) (next_word nk i ws :: ws)) as [l E].
  rewrite E. exists (l ++ [next_word nk i ws]). rewrite <- app_assoc. reflexivity.
Qed.
Lemma all_words_app nk key : exists l, all_words nk key = words nk key ++ l.
Proof.
  unfold all_words. destruct (expand_app nk (4 * (nr_of nk + 1) - nk) nk (rev (words nk key))) as [l E]. rewrite E, rev_app_distr, rev_involutive. eexists. reflexivity.
Qed.
Ltac list_of L := repeat (match type of L with length ?k = _ => is_var k; destruct k as [|? k]; [discriminate L|]; cbn [length] in L; apply Nat.succ_inj in L end);
  match type of L with length ?k = O => destruct k; [|discriminate L] end; clear L.
Lemma first_round_keys nk key : In nk [4;6;8]%nat -> length key = (4 * nk)%nat -> firstn (4 * nk) (round_key nk key 0 ++ round_key nk key 1) = key.
Proof.
  intros Hn L. destruct (all_words_app nk key) as [l E]. unfold round_key. rewrite E. clear E.
  destruct Hn as [<-|[<-|[<-|[]]]]; cbn [Nat.mul Nat.add] in L; list_of L; reflexivity.
Qed.
Lemma unrows_rows s : length s = 16%nat -> unrows (rows s) = s.
Proof. intros L. list_of L. reflexivity. Qed.
Lemma xor_bytes_back a : forall b, length a = length b -> xor_bytes (xor_bytes a b) a = b.
Proof.
  induction a as [|x a IH]; intros [|y b] L; try discriminate L; [reflexivity|]. cbn [xor_bytes]. rewrite IH by (cbn in L; lia).
  rewrite (N.lxor_comm x y), N.lxor_assoc, N.lxor_nilpotent, N.lxor_0_r. reflexivity.
Qed.
Lemma xor_bytes_len a : forall b, length a = length b -> length (xor_bytes a b) = length a.
Proof. induction a as [|x a IH]; intros [|y b] L; try discriminate L; [reflexivity|]. cbn [xor_bytes length]. f_equal. apply IH. cbn in L. lia. Qed.
Lemma mk_len f : length (mkstate f) = 16%nat. Proof. reflexivity. Qed.
Lemma rows_len s : length (rows s) = 16%nat. Proof. reflexivity. Qed.

Section Trace.
Variables (nk : nat) (key pt : bytes).
Hypothesis A : aes_in nk key pt.
Let rest : bytes := skipn 16 pt.
Lemma block_len : length (firstn 16 pt) = 16%nat.
Proof. destruct A as (Hn & _ & _ & Lp & _). rewrite firstn_length, Lp. destruct Hn as [<-|[<-|[<-|[]]]]; reflexivity. Qed.
Lemma rk_len i : (i <= nr_of nk)%nat -> length (round_key nk key i) = 16%nat.
Proof. intros Hi. apply (aes_rk nk key pt A i Hi). Qed.
Lemma state0_len : length (state_after nk key (firstn 16 pt) 0) = 16%nat.
Proof. cbn [state_after]. unfold add_round_key. rewrite xor_bytes_len; [apply block_len|]. rewrite block_len, rk_len by lia. reflexivity. Qed.
Lemma state1_len : length (state_after nk key (firstn 16 pt) 1) = 16%nat.
Proof. cbn [state_after]. unfold round, add_round_key, mix_columns. rewrite xor_bytes_len; [apply mk_len|]. rewrite mk_len, rk_len by (unfold nr_of; lia). reflexivity. Qed.
Lemma trace_split : exists l, sbox_trace nk key (blocks nk pt) = key_sbox_inputs nk key ++ rows (state_after nk key (firstn 16 pt) 0) ++ rows (state_after nk key (firstn 16 pt) 1) ++ l.
Proof.
  assert (B : exists bs, blocks nk pt = firstn 16 pt :: bs).
  { destruct A as (Hn & _ & _ & Lp & _). destruct Hn as [<-|[<-|[<-|[]]]]; cbn [blocks]; eexists; [|reflexivity..].
    rewrite firstn_all2 by (rewrite Lp; cbn; lia). reflexivity. }
  destruct B as [bs ->]. unfold sbox_trace. assert (E : exists k, nr_of nk = S (S k)) by (exists (nk + 4)%nat; unfold nr_of; lia). destruct E as [k ->].
  cbn [flat_map seq map]. rewrite <- !app_assoc. eexists. reflexivity.
Qed.
Lemma schedule_len : length (key_sbox_inputs nk key) = schedule_sboxes nk.
Proof.
  destruct A as (Hn & Lk & Bk & _). destruct Hn as [<-|[<-|[<-|[]]]]; cbn [schedule_sboxes].
  - apply key_out_128. split; assumption.
  - apply key_out_192; assumption.
  - apply key_out_256; assumption.
Qed.
Lemma first_states : let s := sbox_trace nk key (blocks nk pt) in
  firstn 16 (skipn (schedule_sboxes nk) s) = rows (state_after nk key (firstn 16 pt) 0) /\
  firstn 16 (skipn (schedule_sboxes nk + 16) s) = rows (state_after nk key (firstn 16 pt) 1).
Proof.
  cbv zeta. destruct trace_split as [l E]. rewrite E, <- schedule_len. split.
  - rewrite skipn_app, skipn_all, Nat.sub_diag. reflexivity.
  - rewrite skipn_app, (skipn_all2 (key_sbox_inputs nk key)) by lia. cbn [app].
    replace (length (key_sbox_inputs nk key) + 16 - length (key_sbox_inputs nk key))%nat with 16%nat by lia. reflexivity.
Qed.
Lemma first_round_key : xor_bytes (state_after nk key (firstn 16 pt) 0) (firstn 16 pt) = round_key nk key 0.
Proof. cbn [state_after]. unfold add_round_key. apply xor_bytes_back. rewrite block_len, rk_len by lia. reflexivity. Qed.
Lemma key_of_trace_ok : key_of_trace nk pt (sbox_trace nk key (blocks nk pt)) = key.
Proof.
  unfold key_of_trace. destruct first_states as [-> ->]. rewrite unrows_rows by apply state0_len. rewrite unrows_rows by apply state1_len. rewrite first_round_key.
  cbn [state_after]. unfold round, add_round_key at 1. rewrite xor_bytes_back; [|unfold mix_columns; rewrite mk_len, rk_len by (unfold nr_of; lia); reflexivity].
  apply first_round_keys; apply A.
Qed.
Lemma first_key_bytes : round_key nk key 0 = firstn 16 key.
Proof.
  destruct A as (Hn & Lk & _). rewrite <- (first_round_keys nk key Hn Lk) at 2. rewrite firstn_firstn.
  replace (Nat.min 16 (4 * nk)) with 16%nat by (destruct Hn as [<-|[<-|[<-|[]]]]; reflexivity).
  rewrite firstn_app, rk_len, Nat.sub_diag, firstn_O, app_nil_r by lia. rewrite firstn_all2; [reflexivity|]. rewrite rk_len by lia. lia.
Qed.
End Trace.

(** *** cache lines *)
Lemma choices_length b ls : (forall l, In l ls -> (length l <= b)%nat) -> (length (choices ls) <= b ^ length ls)%nat.
Proof.
  induction ls as [|l ls IH]; intros Hb; [cbn; lia|]. cbn [choices length Nat.pow].
  assert (G : length (flat_map (fun x => map (cons x) (choices ls)) l) = (length l * length (choices ls))%nat).
  { clear. induction l as [|x l IH]; [reflexivity|]. cbn [flat_map length Nat.mul]. rewrite app_length, map_length, IH. reflexivity. }
  rewrite G. apply Nat.mul_le_mono; [apply Hb; left; reflexivity|apply IH; intros l' Hl; apply Hb; right; exact Hl].
Qed.
Lemma choices_in ls : forall xs, Forall2 (fun x l => In x l) xs ls -> In xs (choices ls).
Proof.
  induction ls as [|l ls IH]; intros xs F; inversion F; subst; cbn [choices]; [left; reflexivity|]. apply in_flat_map. eexists. split; [eassumption|]. apply in_map, IH. assumption.
Qed.
Lemma in_lines_In a u v x : x < 256 -> line a x = u -> line a (finv8 x) = v -> In x (in_lines a u v).
Proof.
  intros Hx Eu Ev. apply filter_In. split; [|rewrite Eu, Ev, !N.eqb_refl; reflexivity]. apply in_map_iff. exists (N.to_nat x). split; [lia|]. apply in_seq. lia.
Qed.
(** at most b bytes x have x and their inverse in given lines *)
Definition pairs : list (N * N) := map (fun x => (x, finv8 x)) (map N.of_nat (seq 0 256)).
Definition pairs_in (tab : list (N * N)) (a u v : N) : list (N * N) := filter (fun q => (line a (fst q) =? u) && (line a (snd q) =? v)) tab.
Definition few_of (tab : list (N * N)) (b : nat) (a : N) : bool := forallb (fun q => (length (pairs_in tab a (line a (fst q)) (line a (snd q))) <=? b)%nat) tab.
Lemma filter_pairs {A B} (g : A -> B) (f : A * B -> bool) l : filter (fun x => f (x, g x)) l = map fst (filter f (map (fun x => (x, g x)) l)).
Proof. induction l as [|x l IH]; [reflexivity|]. cbn [filter map]. destruct (f (x, g x)); cbn [map fst]; rewrite IH; reflexivity. Qed.
Lemma in_lines_pairs a u v : in_lines a u v = map fst (pairs_in pairs a u v).
Proof. exact (filter_pairs finv8 (fun q => (line a (fst q) =? u) && (line a (snd q) =? v)) (map N.of_nat (seq 0 256))). Qed.
Lemma few_of_ok tab b a u v : few_of tab b a = true -> (length (pairs_in tab a u v) <= b)%nat.
Proof.
  intros F. destruct (pairs_in tab a u v) as [|q l] eqn:E; [apply Nat.le_0_l|]. assert (X : In q (pairs_in tab a u v)) by (rewrite E; left; reflexivity).
  apply filter_In in X. destruct X as [X Y]. apply andb_prop in Y. destruct Y as [Y1 Y2]. apply N.eqb_eq in Y1, Y2.
  unfold few_of in F. rewrite forallb_forall in F. specialize (F q X). apply Nat.leb_le in F. rewrite Y1, Y2, E in F. exact F.
Qed.
Lemma few_ok b a u v : few_of pairs b a = true -> (length (in_lines a u v) <= b)%nat.
Proof. rewrite in_lines_pairs, map_length. generalize pairs. intros tab. apply few_of_ok. Qed.
Lemma few_aligned : few_of pairs 2 0 = true. Proof. vm_compute. reflexivity. Qed.
Lemma few_any a : a < 8 -> few_of pairs 6 a = true.
Proof.
  intros Ha. assert (G : forallb (fun k => few_of pairs 6 (N.of_nat k)) (seq 0 8) = true) by (vm_compute; reflexivity). rewrite forallb_forall in G.
  rewrite <- (N2Nat.id a). apply G. apply in_seq. lia.
Qed.

Lemma finv8_unique x y : x < 256 -> y < 256 -> fmul x y = 1 -> finv8 x = y.
Proof.
  intros Hx Hy E.
  assert (G : forallb (fun i => let z := finv8 (N.of_nat i) in forallb (fun j => negb (fmul (N.of_nat i) (N.of_nat j) =? 1) || (z =? N.of_nat j)) (seq 0 256)) (seq 0 256) = true)
    by (vm_compute; reflexivity).
  rewrite forallb_forall in G. specialize (G (N.to_nat x) ltac:(apply in_seq; lia)). cbv zeta in G. rewrite forallb_forall in G.
  specialize (G (N.to_nat y) ltac:(apply in_seq; lia)). rewrite !N2Nat.id, E in G. cbn [N.eqb Pos.eqb negb orb] in G. apply N.eqb_eq in G. exact G.
Qed.
