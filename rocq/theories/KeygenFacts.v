(** Where the bytes of a generated key come from. *)
From Coq Require Import Arith NArith ZArith List Bool Lia.
From Verif Require Import Prelude FieldModel Instances HashModel TreeModel AesSpec AesBase AesApi AesShares ListSum ContainerModel BanquetModel BanquetPure BanquetApi FreeSpec.
Import ListNotations.

(** byte p of a zero-initialised buffer into whose front the strings d 0, ..., d (n-1) were copied, one after the other *)
Fixpoint latest (d : nat -> bytes) (n p : nat) : N :=
  match n with
  | O => 0%N
  | S m => if p <? length (d m) then nth p (d m) 0%N else latest d m p
  end.
Definition buffer (d : nat -> bytes) (n len : nat) : bytes := map (latest d n) (seq 0 len).

Lemma nth_skipn {A} (l : list A) k i d : nth i (skipn k l) d = nth (k + i) l d.
Proof. revert l; induction k; destruct l; cbn; auto. destruct i; reflexivity. Qed.
Lemma buffer_0 d len : buffer d 0 len = zeros len.
Proof. unfold buffer, zeros. cbn [latest]. apply map_repeat_seq. Qed.
Lemma buffer_len d n len : length (buffer d n len) = len.
Proof. unfold buffer. rewrite map_length. apply seq_length. Qed.
Lemma buffer_step d n len x : copy_into (d n) (buffer d n len) = Ok x -> x = buffer d (S n) len.
Proof.
  intros E. unfold copy_into in E. rewrite buffer_len in E. destruct (Nat.leb_spec (length (d n)) len) as [L|]; [|discriminate E]. injection E as <-.
  apply list_eq_nth; [rewrite app_length, skipn_length, !buffer_len; lia|]. rewrite app_length, skipn_length, buffer_len. intros i Hi dd.
  unfold buffer at 2. rewrite nth_map_seq by lia. cbn [latest]. destruct (Nat.ltb_spec i (length (d n))).
  - rewrite app_nth1 by assumption. apply nth_indep. assumption.
  - rewrite app_nth2 by assumption. rewrite nth_skipn. replace (length (d n) + (i - length (d n))) with i by lia. unfold buffer. apply nth_map_seq. lia.
Qed.
Lemma latest_full d n p len : length (d n) = len -> p < len -> latest d (S n) p = nth p (d n) 0%N.
Proof. intros <- H. cbn [latest]. apply Nat.ltb_lt in H. rewrite H. reflexivity. Qed.
Lemma latest_delivered d n p : latest d n p <> 0%N -> exists m, m < n /\ p < length (d m) /\ latest d n p = nth p (d m) 0%N.
Proof.
  induction n; intros H; [contradiction (H eq_refl)|]. cbn [latest] in *. destruct (Nat.ltb_spec p (length (d n))); [exists n; auto|].
  destruct (IHn H) as (m & A & B & C). exists m. auto.
Qed.
Lemma latest_reach d n p m : m < n -> p < length (d m) -> exists m', m <= m' < n /\ p < length (d m') /\ latest d n p = nth p (d m') 0%N.
Proof.
  induction n; intros Hm Hp; [lia|]. cbn [latest]. destruct (Nat.ltb_spec p (length (d n))) as [L|L]; [exists n; split; [lia|auto]|].
  destruct (Nat.eq_dec m n) as [->|Hne]; [lia|]. destruct IHn as (m' & A & B & C); [lia|exact Hp|]. exists m'. split; [lia|auto].
Qed.

(** the last byte of the key goes through the S-box *)
Lemma nth_words n : forall l k, k < n -> nth k (words n l) [] = firstn 4 (skipn (4 * k) l).
Proof.
  induction n; intros l k H; [lia|]. cbn [words]. destruct k; [reflexivity|]. cbn [nth]. rewrite IHn by lia. f_equal.
  replace (4 * S k) with (4 + 4 * k) by lia. generalize (4 * k). intros m. clear. rewrite !Nat.add_succ_l. cbn [Nat.add]. destruct l as [|a [|b [|c [|e l]]]]; cbn [skipn]; try reflexivity; destruct m; reflexivity.
Qed.
Lemma words_length n : forall l, length (words n l) = n.
Proof. induction n; intros l; [reflexivity|]. cbn [words length]. f_equal. apply IHn. Qed.
Lemma expand_app nk n : forall i ws, exists t, expand nk i n ws = t ++ ws.
Proof.
  induction n; intros i ws; [exists []; reflexivity|]. cbn [expand]. destruct (IHn (S i) (next_word nk i ws :: ws)) as [t ->]. exists (t ++ [next_word nk i ws]). rewrite <- app_assoc. reflexivity.
Qed.
Lemma last_byte_in nk key : nk_ok nk -> length key = 4 * nk -> In (nth (4 * nk - 1) key 0%N) (key_sbox_inputs nk key).
Proof.
  intros Hn L. assert (P : 4 <= nk <= 8) by (destruct Hn as [<-|[<-|[<-|[]]]]; lia).
  unfold key_sbox_inputs. apply in_concat.
  exists (rot_word (firstn 4 (skipn (4 * (nk - 1)) key))). split.
  - apply in_map_iff. exists nk. split.
    + unfold sub_input. rewrite Nat.mod_same by lia. cbn [Nat.eqb]. f_equal. unfold all_words.
      destruct (expand_app nk (4 * (nr_of nk + 1) - nk) nk (rev (words nk key))) as [t ->]. rewrite rev_app_distr, rev_involutive.
      rewrite app_nth1 by (rewrite words_length; lia). apply nth_words. lia.
    + apply in_seq. unfold nr_of. lia.
  - assert (Q : firstn 4 (skipn (4 * (nk - 1)) key) = skipn (4 * (nk - 1)) key) by (apply firstn_all2; rewrite skipn_length; lia). rewrite Q.
    assert (In (nth (4 * nk - 1) key 0%N) (skipn (4 * (nk - 1)) key)).
    { replace (nth (4 * nk - 1) key 0%N) with (nth 3 (skipn (4 * (nk - 1)) key) 0%N); [apply nth_In; rewrite skipn_length; lia|]. rewrite nth_skipn. f_equal. lia. }
    destruct (skipn (4 * (nk - 1)) key) as [|a w]; [contradiction|]. cbn [rot_word]. apply in_or_app. destruct H as [->|H]; [right; left; reflexivity|left; exact H].
Qed.

Section Keygen.
Variables (I : instance) (c : fctx) (nk : nat) (r : rng).
Hypothesis OK : inst_ok I c nk.
Hypothesis HR : rng_bytes r.
Notation ks := (key_size (i_aes I)).
Definition dk (i : nat) : bytes := snd (r (2 * i)).
Definition dp (i : nat) : bytes := snd (r (2 * i + 1)).
Lemma latest_byte d n p : (forall i, is_bytes (d i)) -> is_byte (latest d n p).
Proof. intros H. induction n; [reflexivity|]. cbn [latest]. destruct (p <? length (d n)); [apply is_bytes_nth, H|exact IHn]. Qed.
Lemma buffer_str d n len : (forall i, is_bytes (d i)) -> str len (buffer d n len).
Proof. intros H. split; [apply buffer_len|]. apply Forall_map, Forall_forall. intros p _. apply latest_byte. exact H. Qed.
Lemma loop_exact fuel : forall m kp, keygen_loop fuel I r (2 * m) (buffer dk m ks) (buffer dp m (pt_size I)) = Ok kp ->
  exists n ct, m <= n < m + fuel /\ kp = (buffer dk (S n) ks, buffer dp (S n) (pt_size I) ++ ct) /\
    aes_n nk (buffer dk (S n) ks) (buffer dp (S n) (pt_size I)) = Some ct /\
    (forall i, m <= i < n -> aes_n nk (buffer dk (S i) ks) (buffer dp (S i) (pt_size I)) = None) /\
    (forall i, m <= i <= n -> length (dk i) <= ks /\ length (dp i) <= pt_size I).
Proof.
  induction fuel as [|f IH]; intros m kp E; [discriminate E|]. cbn [keygen_loop] in E. unfold rand_bytes in E.
  change (snd (r (2 * m))) with (dk m) in E. change (snd (r (2 * m + 1))) with (dp m) in E.
  destruct (copy_into (dk m) (buffer dk m ks)) as [k1| | |] eqn:E1; try discriminate E. cbn [bind] in E.
  destruct (copy_into (dp m) (buffer dp m (pt_size I))) as [p1| | |] eqn:E2; try discriminate E. cbn [bind] in E.
  assert (L1 : length (dk m) <= ks) by (unfold copy_into in E1; rewrite buffer_len in E1; destruct (Nat.leb_spec (length (dk m)) ks); [assumption|discriminate E1]).
  assert (L2 : length (dp m) <= pt_size I) by (unfold copy_into in E2; rewrite buffer_len in E2; destruct (Nat.leb_spec (length (dp m)) (pt_size I)); [assumption|discriminate E2]).
  apply buffer_step in E1. apply buffer_step in E2. subst k1 p1.
  rewrite (aes_plain_ok I c nk _ _ OK) in E by (apply buffer_str; intros; apply HR). cbn [bind] in E.
  destruct (aes_n nk (buffer dk (S m) ks) (buffer dp (S m) (pt_size I))) as [ct|] eqn:Ea.
  - injection E as <-. exists m, ct. split; [lia|]. split; [reflexivity|]. split; [exact Ea|]. split; [intros; lia|]. intros i Hi. replace i with m by lia. auto.
  - replace (2 * m + 2) with (2 * S m) in E by lia. destruct (IH _ _ E) as (n & ct & A & B & C & D & F). exists n, ct. split; [lia|]. split; [exact B|]. split; [exact C|]. split.
    + intros i Hi. destruct (Nat.eq_dec i m) as [->|]; [exact Ea|]. apply D. lia.
    + intros i Hi. destruct (Nat.eq_dec i m) as [->|]; [auto|]. apply F. lia.
Qed.
End Keygen.

Lemma regular_ks I : regular I -> key_size (i_aes I) = 4 * nk_of I.
Proof. intros HB. destruct (regular_inst_ok I HB) as [c OK]. apply (io_ks _ _ _ OK). Qed.
Lemma keygen_exact I kf r key pk : regular I -> rng_bytes r -> keygen kf I r = Ok (key, pk) ->
  exists n, n < kf /\
    let K i := buffer (fun j => snd (r (2 * j))) i (key_size (i_aes I)) in
    let P i := buffer (fun j => snd (r (2 * j + 1))) i (pt_size I) in
    key = K (S n) /\ firstn (pt_size I) pk = P (S n) /\
    (forall i, i <= n -> (In 0%N (all_sbox_inputs (nk_of I) (K (S i)) (blocks (nk_of I) (P (S i)))) <-> i < n)).
Proof.
  intros HB HR E. destruct (regular_inst_ok I HB) as [c OK]. unfold keygen in E.
  rewrite <- (buffer_0 (dk r)), <- (buffer_0 (dp r)) in E. destruct (loop_exact I c (nk_of I) r OK HR kf 0 (key, pk) E) as (n & ct & A & B & C & D & F).
  injection B as -> ->. exists n. split; [lia|]. cbv zeta. split; [reflexivity|]. split.
  - rewrite firstn_app, (firstn_all2 (buffer _ _ _)) by (rewrite buffer_len; lia). rewrite buffer_len, Nat.sub_diag. cbn [firstn]. apply app_nil_r.
  - intros i Hi. rewrite <- aes_none.
    + split; [|intros Hl; apply D; lia]. intros X. destruct (Nat.eq_dec i n) as [->|]; [|lia]. unfold dk, dp in C. rewrite C in X. discriminate X.
    + apply (inst_aes_in I c _ _ _ OK); apply buffer_str; intros; apply HR.
Qed.
Lemma keygen_all_delivered I kf r key pk : regular I -> rng_bytes r -> keygen kf I r = Ok (key, pk) ->
  exists n, (exists m, m <= n /\ length (snd (r (2 * m))) = key_size (i_aes I)) /\
    forall p, p < key_size (i_aes I) -> exists m, m <= n /\ p < length (snd (r (2 * m))) /\ nth p key 0%N = nth p (snd (r (2 * m))) 0%N.
Proof.
  intros HB HR E. destruct (regular_inst_ok I HB) as [c OK]. unfold keygen in E.
  rewrite <- (buffer_0 (dk r)), <- (buffer_0 (dp r)) in E. destruct (loop_exact I c (nk_of I) r OK HR kf 0 (key, pk) E) as (n & ct & A & B & C & D & F).
  injection B as -> ->. exists n. pose proof (regular_ks I HB) as Kk. pose proof (io_nk _ _ _ OK) as Hn.
  assert (P4 : 4 <= nk_of I) by (destruct Hn as [<-|[<-|[<-|[]]]]; lia).
  assert (NZ : latest (dk r) (S n) (key_size (i_aes I) - 1) <> 0%N).
  { intros Z. assert (X : aes_n (nk_of I) (buffer (dk r) (S n) (key_size (i_aes I))) (buffer (dp r) (S n) (pt_size I)) = None).
    - apply aes_none; [apply (inst_aes_in I c _ _ _ OK); apply buffer_str; intros; apply HR|]. unfold all_sbox_inputs. apply in_or_app. left.
      rewrite <- Z. replace (latest (dk r) (S n) (key_size (i_aes I) - 1)) with (nth (4 * nk_of I - 1) (buffer (dk r) (S n) (key_size (i_aes I))) 0%N).
      + apply last_byte_in; [exact Hn|rewrite buffer_len; exact Kk].
      + unfold buffer. rewrite nth_map_seq by lia. rewrite Kk. reflexivity.
    - rewrite C in X. discriminate X. }
  destruct (latest_delivered _ _ _ NZ) as (m & Hm & Lm & _). destruct (F m ltac:(lia)) as [Fm _].
  assert (Em : length (snd (r (2 * m))) = key_size (i_aes I)) by (unfold dk in *; lia).
  split; [exists m; split; [lia|exact Em]|].
  intros p Hp. unfold buffer. rewrite nth_map_seq by exact Hp. destruct (latest_reach (dk r) (S n) p m Hm) as (m' & A1 & A2 & A3); [unfold dk in *; lia|].
  exists m'. split; [lia|]. split; [exact A2|exact A3].
Qed.
Lemma keygen_successful I kf r key pk : regular I -> rng_bytes r ->
  (forall i, fst (r i) = true /\ length (snd (r i)) = if Nat.even i then key_size (i_aes I) else pt_size I) -> keygen kf I r = Ok (key, pk) ->
  exists n, key = snd (r (2 * n)) /\ firstn (pt_size I) pk = snd (r (2 * n + 1)).
Proof.
  intros HB HR HS E. destruct (keygen_exact I kf r key pk HB HR E) as (n & _ & A & B & _). exists n. rewrite A, B.
  assert (G : forall d len, length (d n) = len -> buffer d (S n) len = d n).
  { intros d len L. apply list_eq_nth; [rewrite buffer_len; symmetry; exact L|]. rewrite buffer_len. intros p Hp dd. unfold buffer. rewrite nth_map_seq by exact Hp.
    rewrite (latest_full d n p len L Hp). apply nth_indep. lia. }
  split.
  - apply (G (fun j => snd (r (2 * j)))). destruct (HS (2 * n)) as [_ ->]. rewrite (Nat.even_mul 2 n). reflexivity.
  - apply (G (fun j => snd (r (2 * j + 1)))). destruct (HS (2 * n + 1)) as [_ ->]. rewrite Nat.even_add, Nat.even_mul. reflexivity.
Qed.
