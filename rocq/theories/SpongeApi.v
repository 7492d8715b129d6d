(** The hash interface on top of the sponge: whole computations, four-way computations, and the link to HashModel. *)
From Coq Require Import Arith NArith List Bool Lia.
From Verif Require Import Prelude SpongeModel SpongeSpec HashModel SpongeFacts.
Import ListNotations.

(** ** Whole computations, as a caller of kdf_shake.h writes them: init, any number of updates, final, any number of squeezes *)
Fixpoint k_squeezes (f : bytes -> bytes) (fuel : nat) (k : khash) (lens : list nat) : res (list bytes) :=
  match lens with
  | [] => Ok []
  | n :: lens' => do (o, k') <- k_hash_squeeze f fuel k n; do os <- k_squeezes f fuel k' lens'; Ok (o :: os)
  end.
Definition hash_run (f : bytes -> bytes) (fuel digest : nat) (chunks : list bytes) (lens : list nat) : res (list bytes) :=
  match k_hash_init digest with
  | None => UB OutOfBounds
  | Some k => do k <- foldM (k_hash_update f fuel) chunks k; do k <- k_hash_final f fuel k; k_squeezes f fuel k lens
  end.
(** the same with four inputs *)
Fixpoint k_squeezes_x4 (f : bytes -> bytes) (fuel : nat) (k : khash4) (lens : list nat) : res (list (list bytes)) :=
  match lens with
  | [] => Ok []
  | n :: lens' => do (o, k') <- k_hash_squeeze_x4 f fuel k n; do os <- k_squeezes_x4 f fuel k' lens'; Ok (o :: os)
  end.
Definition hash_run_x4 (f : bytes -> bytes) (fuel digest : nat) (chunks : list (list bytes)) (lens : list nat) : res (list (list bytes)) :=
  match k_hash_init_x4 digest with
  | None => UB OutOfBounds
  | Some k => do k <- foldM (k_hash_update_x4 f fuel) chunks k; do k <- k_hash_final_x4 f fuel k; k_squeezes_x4 f fuel k lens
  end.
(** consecutive pieces of the given lengths of the sequence g from position off on *)
Fixpoint pieces (g : nat -> N) (off : nat) (lens : list nat) : list bytes :=
  match lens with
  | [] => []
  | n :: lens' => map g (seq off n) :: pieces g (off + n) lens'
  end.
(** the same calls on HashModel's contexts *)
Fixpoint oracle_run (H : oracle) (c : hctx) (lens : list nat) : list bytes :=
  match lens with
  | [] => []
  | n :: lens' => let (o, c') := hash_squeeze H c n in o :: oracle_run H c' lens'
  end.
Definition rmap {A B} (g : A -> B) (r : res A) : res B :=
  match r with Ok a => Ok (g a) | Throw e => Throw e | UB u => UB u | OutOfFuel => OutOfFuel end.

Lemma bits_small n : (N.of_nat n < 2 ^ 61)%N -> bits_bytes n = n.
Proof.
  intros H. unfold bits_bytes. rewrite N.mod_small by lia. rewrite N.div_mul by discriminate. apply Nat2N.id.
Qed.
Lemma rate_bounds v : 1 <= shake_rate v <= 168.
Proof. destruct v; cbn; lia. Qed.

Section Run.
Variable f : bytes -> bytes.
Hypothesis f_len : forall st : bytes, length st = 200 -> length (f st) = 200.

(** k has absorbed m *)
Definition absorbing (k : khash) (v : bool) (m : bytes) : Prop :=
  kh_fixed k = 0 /\ kh_suffix k = 31%N /\ sp_rate (kh_sponge k) = 8 * shake_rate v /\ sp_squeezing (kh_sponge k) = false /\
  (sp_state (kh_sponge k), sp_idx (kh_sponge k)) = fold_left (ab1 f (shake_rate v)) m ((repeat 0%N 200 : bytes), 0).
(** k has absorbed m and put out off bytes *)
Definition squeezing (k : khash) (v : bool) (m : bytes) (off : nat) : Prop :=
  sp_rate (kh_sponge k) = 8 * shake_rate v /\ sp_squeezing (kh_sponge k) = true /\
  at_pos f (shake_rate v) (absorbed f (shake_rate v) m) off (sp_state (kh_sponge k)) (sp_idx (kh_sponge k)).

Lemma init_absorbing digest : exists k, k_hash_init digest = Some k /\ absorbing k (digest =? 32) [].
Proof.
  unfold k_hash_init. destruct (digest =? 32).
  - eexists; split; [reflexivity|]. repeat split; reflexivity.
  - eexists; split; [reflexivity|]. repeat split; reflexivity.
Qed.
Lemma rate8 v : 8 * shake_rate v / 8 = shake_rate v.
Proof. rewrite Nat.mul_comm. apply Nat.div_mul. discriminate. Qed.
Lemma absorbing_inv k v m : absorbing k v m ->
  length (sp_state (kh_sponge k)) = 200 /\ sp_idx (kh_sponge k) = length m mod shake_rate v.
Proof.
  intros (_ & _ & _ & _ & E). pose proof (rate_bounds v).
  destruct (ab_inv f f_len (shake_rate v) ltac:(lia) ltac:(lia) m (repeat 0%N 200) 0 ltac:(lia) eq_refl) as [A B].
  rewrite <- E in A, B. auto.
Qed.
Lemma update_ok fuel k v (m d : bytes) : absorbing k v m -> (N.of_nat (length d) < 2 ^ 61)%N -> length d + 4 <= fuel ->
  (length m mod shake_rate v = 0 \/ good_length (shake_rate v) (length m mod shake_rate v) (N.of_nat (length d))) ->
  exists k', k_hash_update f fuel k d = Ok k' /\ absorbing k' v (m ++ d).
Proof.
  intros A S F G. destruct (absorbing_inv _ _ _ A) as [L I]. pose proof (rate_bounds v) as RB.
  destruct A as (A1 & A2 & A3 & A4 & A5).
  unfold k_hash_update, sponge_absorb. rewrite bits_small, firstn_all, A4, A3, rate8 by assumption.
  rewrite (loop_ok f f_len (shake_rate v)) by (try rewrite I; auto; try lia; apply Nat.mod_upper_bound; lia).
  destruct (fold_left (ab1 f (shake_rate v)) d (sp_state (kh_sponge k), sp_idx (kh_sponge k))) as [st idx] eqn:E.
  cbn [bind]. eexists; split; [reflexivity|]. unfold absorbing.
  cbn [kh_fixed kh_suffix kh_sponge sp_rate sp_squeezing sp_state sp_idx]. repeat split; auto.
  rewrite fold_left_app, <- A5. exact (eq_sym E).
Qed.
Lemma update_hangs fuel k v (m d : bytes) : absorbing k v m -> (N.of_nat (length d) < 2 ^ 61)%N ->
  length m mod shake_rate v <> 0 -> (2 ^ 32 <= N.of_nat (length d))%N ->
  (N.of_nat (length d) mod 2 ^ 32 + N.of_nat (length m mod shake_rate v) < N.of_nat (shake_rate v))%N ->
  k_hash_update f fuel k d = OutOfFuel.
Proof.
  intros A S Z H M. destruct (absorbing_inv _ _ _ A) as [L I]. pose proof (rate_bounds v) as RB.
  pose proof (Nat.mod_upper_bound (length m) (shake_rate v) ltac:(lia)).
  destruct A as (A1 & A2 & A3 & A4 & A5).
  unfold k_hash_update, sponge_absorb. rewrite bits_small, firstn_all, A4, A3, rate8 by assumption.
  rewrite (loop_hangs f (shake_rate v)) by (rewrite ?I; auto; lia). reflexivity.
Qed.
Lemma update_overruns fuel k v (m d : bytes) : absorbing k v m -> (N.of_nat (length d) < 2 ^ 61)%N -> 0 < fuel -> d <> [] ->
  length m mod shake_rate v <> 0 ->
  (2 ^ 32 <= N.of_nat (length d) mod 2 ^ 32 + N.of_nat (length m mod shake_rate v))%N ->
  k_hash_update f fuel k d = UB OutOfBounds.
Proof.
  intros A S F D Z M. destruct (absorbing_inv _ _ _ A) as [L I]. pose proof (rate_bounds v) as RB.
  pose proof (Nat.mod_upper_bound (length m) (shake_rate v) ltac:(lia)).
  destruct A as (A1 & A2 & A3 & A4 & A5).
  unfold k_hash_update, sponge_absorb. rewrite bits_small, firstn_all, A4, A3, rate8 by assumption.
  rewrite (loop_overruns f (shake_rate v)) by (rewrite ?I; auto; lia). reflexivity.
Qed.
Lemma final_ok fuel k v m : absorbing k v m -> 1 <= fuel -> exists k', k_hash_final f fuel k = Ok k' /\ squeezing k' v m 0.
Proof.
  intros A F. destruct (absorbing_inv _ _ _ A) as [L I]. pose proof (rate_bounds v) as RB.
  pose proof (Nat.mod_upper_bound (length m) (shake_rate v) ltac:(lia)) as U.
  destruct A as (A1 & A2 & A3 & A4 & A5).
  unfold k_hash_final, sponge_last, add_byte. rewrite A2, A4, A3, rate8, A1. change (31 =? 0)%N with false. change (128 <=? 31)%N with false. cbn [andb].
  cbv beta iota zeta.
  destruct (Nat.ltb_spec (sp_idx (kh_sponge k)) (length (sp_state (kh_sponge k)))); [|lia].
  cbn [bind]. rewrite xin_length.
  destruct (Nat.ltb_spec (shake_rate v - 1) (length (sp_state (kh_sponge k)))); [|lia].
  cbn [bind]. unfold sponge_squeeze. cbn [sp_squeezing bind sp_rate sp_state sp_idx]. change (0 / 8) with 0.
  rewrite rate8, sloop_nil by lia. cbn [bind length Nat.eqb].
  eexists; split; [reflexivity|]. unfold squeezing. cbn. repeat split.
  exists 0. repeat split; auto; try lia. cbn [Nat.iter nat_rect].
  apply last_absorbed; auto; lia.
Qed.
Lemma squeezing_inv k v m off : squeezing k v m off ->
  length (sp_state (kh_sponge k)) = 200 /\ sp_idx (kh_sponge k) <= shake_rate v.
Proof.
  intros (_ & _ & q & K & I & S). split; auto. rewrite S. apply iter_len; auto.
  pose proof (rate_bounds v). unfold absorbed. destruct (pad_length (shake_rate v) ltac:(lia) ltac:(lia) m) as [n Hn].
  rewrite Hn, Nat.div_mul by lia.
  pose proof (absorb_n_fold f f_len (shake_rate v) ltac:(lia) ltac:(lia) n (repeat 0%N 200) _ Hn eq_refl) as E.
  apply (f_equal fst) in E. cbn [fst] in E. rewrite <- E.
  apply (ab_inv f f_len (shake_rate v)); auto; lia.
Qed.
Lemma squeeze_ok fuel k v m off n : squeezing k v m off -> (N.of_nat n + 200 <= 2 ^ 32)%N -> n + 4 <= fuel ->
  exists k', k_hash_squeeze f fuel k n = Ok (map (shake f v m) (seq off n), k') /\ squeezing k' v m (off + n).
Proof.
  intros A S F. destruct (squeezing_inv _ _ _ _ A) as [L I]. pose proof (rate_bounds v) as RB.
  destruct A as (A3 & A4 & A5).
  unfold k_hash_squeeze, sponge_squeeze. rewrite bits_small, A4 by lia. cbn [bind].
  rewrite A3, rate8. rewrite (sloop_ok f f_len (shake_rate v)); auto; try lia.
  2: { right. left. lia. }
  destruct (pull_stream f (shake_rate v) ltac:(lia) ltac:(lia) _ n off _ _ A5) as (st' & idx' & P & Q).
  rewrite P. cbn [bind]. eexists; split; [reflexivity|]. unfold squeezing. cbn. auto.
Qed.
Lemma squeeze_hangs fuel k v m off n : squeezing k v m off -> (N.of_nat n < 2 ^ 61)%N ->
  sp_idx (kh_sponge k) < shake_rate v -> (2 ^ 32 <= N.of_nat n)%N ->
  (N.of_nat n mod 2 ^ 32 + N.of_nat (sp_idx (kh_sponge k)) < N.of_nat (shake_rate v))%N ->
  k_hash_squeeze f fuel k n = OutOfFuel.
Proof.
  intros A S Z H M. destruct (squeezing_inv _ _ _ _ A) as [L I]. pose proof (rate_bounds v) as RB.
  destruct A as (A3 & A4 & A5).
  unfold k_hash_squeeze, sponge_squeeze. rewrite bits_small, A4 by lia. cbn [bind].
  rewrite A3, rate8. rewrite (sloop_hangs f (shake_rate v)); auto; lia.
Qed.
(** once finalised, a context ignores further input and further finalisation *)
Lemma late_update fuel k v m off d : squeezing k v m off -> k_hash_update f fuel k d = Ok k.
Proof. intros (_ & A & _). unfold k_hash_update, sponge_absorb. rewrite A. destruct k; reflexivity. Qed.
Lemma late_final fuel k v m off : kh_suffix k <> 0%N -> squeezing k v m off -> k_hash_final f fuel k = Ok k.
Proof.
  intros N0 (_ & A & _). unfold k_hash_final, sponge_last. destruct (N.eqb_spec (kh_suffix k) 0); [contradiction|].
  rewrite A. reflexivity.
Qed.

(** all lengths small *)
Definition small (n : nat) : Prop := (N.of_nat n + 200 <= 2 ^ 32)%N.
Lemma updates_ok fuel v : forall chunks k m, absorbing k v m ->
  Forall (fun d => small (length d)) chunks -> Forall (fun d => length d + 4 <= fuel) chunks ->
  exists k', foldM (k_hash_update f fuel) chunks k = Ok k' /\ absorbing k' v (m ++ concat chunks).
Proof.
  induction chunks as [|d chunks IH]; intros k m A S F; cbn [foldM concat].
  - exists k. rewrite app_nil_r. auto.
  - inversion S as [|x y S1 S2]; inversion F as [|x' y' F1 F2]; subst.
    pose proof (rate_bounds v). pose proof (Nat.mod_upper_bound (length m) (shake_rate v) ltac:(lia)).
    unfold small in S1.
    destruct (update_ok fuel k v m d A) as (k1 & E1 & A1); try lia.
    { right. left. lia. }
    rewrite E1. cbn [bind]. destruct (IH k1 (m ++ d) A1 S2 F2) as (k2 & E2 & A2).
    exists k2. rewrite app_assoc. auto.
Qed.
Lemma squeezes_ok fuel v m : forall lens k off, squeezing k v m off ->
  Forall small lens -> Forall (fun n => n + 4 <= fuel) lens ->
  k_squeezes f fuel k lens = Ok (pieces (shake f v m) off lens).
Proof.
  induction lens as [|n lens IH]; intros k off A S F; cbn [k_squeezes pieces]; auto.
  inversion S as [|x y S1 S2]; inversion F as [|x' y' F1 F2]; subst.
  destruct (squeeze_ok fuel k v m off n A S1 F1) as (k1 & E1 & A1).
  rewrite E1. cbn [bind]. rewrite (IH k1 _ A1 S2 F2). reflexivity.
Qed.
Lemma run_ok digest chunks lens : Forall (fun d => small (length d)) chunks -> Forall small lens ->
  exists fuel0, forall fuel, fuel0 <= fuel ->
    hash_run f fuel digest chunks lens = Ok (pieces (shake f (digest =? 32) (concat chunks)) 0 lens).
Proof.
  intros S1 S2. exists (4 + list_sum (map (@length N) chunks) + list_sum lens). intros fuel F.
  unfold hash_run. destruct (init_absorbing digest) as (k & E & A). rewrite E.
  destruct (updates_ok fuel _ chunks k [] A S1) as (k1 & E1 & A1).
  { assert (forall l, Forall (fun d : bytes => length d <= list_sum (map (@length N) l)) l) as X.
    { clear. induction l as [|a l IH]; constructor; unfold list_sum in *; cbn; [lia|]. eapply Forall_impl; [|exact IH]. cbn. intros. lia. }
    eapply Forall_impl; [|exact (X chunks)]. unfold list_sum in *. cbn. intros. lia. }
  rewrite E1. cbn [bind app] in *. destruct (final_ok fuel k1 _ _ A1 ltac:(lia)) as (k2 & E2 & A2).
  rewrite E2. cbn [bind]. apply squeezes_ok; auto.
  assert (forall l, Forall (fun d : nat => d <= list_sum l) l) as X.
  { clear. induction l as [|a l IH]; constructor; unfold list_sum in *; cbn; [lia|]. eapply Forall_impl; [|exact IH]. cbn. intros. lia. }
  eapply Forall_impl; [|exact (X lens)]. unfold list_sum in *. cbn. intros. lia.
Qed.
Lemma pieces_concat g : forall lens off, concat (pieces g off lens) = map g (seq off (list_sum lens)).
Proof.
  induction lens as [|n lens IH]; intros off; cbn [pieces concat list_sum fold_right]; auto.
  rewrite IH, seq_app, map_app. reflexivity.
Qed.
End Run.

(** ** the oracle of HashModel *)
Section Bytes.
Variable f : bytes -> bytes.
Hypothesis f_bytes : forall st, is_bytes st -> is_bytes (f st).
Lemma pad_bytes rb m : is_bytes m -> is_bytes (shake_pad rb m).
Proof.
  intros M. unfold shake_pad, is_bytes in *.
  assert (Z : forall n, is_bytes (repeat 0%N n)) by (intros n; apply Forall_forall; intros x Hx; apply repeat_spec in Hx; subst; constructor).
  destruct (_ =? 1); rewrite !Forall_app; repeat split; try assumption; try apply Z; repeat constructor.
Qed.
Lemma firstn_bytes n (p : bytes) : is_bytes p -> is_bytes (firstn n p).
Proof. intros H. unfold is_bytes in *. rewrite <- (firstn_skipn n p) in H. apply Forall_app in H. tauto. Qed.
Lemma skipn_bytes n (p : bytes) : is_bytes p -> is_bytes (skipn n p).
Proof. intros H. unfold is_bytes in *. rewrite <- (firstn_skipn n p) in H. apply Forall_app in H. tauto. Qed.
Lemma absorb_n_bytes rb : forall n st p, is_bytes st -> is_bytes p -> is_bytes (absorb_n f rb n st p).
Proof.
  induction n as [|n IH]; intros st p S P; cbn [absorb_n]; auto.
  apply IH.
  - apply f_bytes. rewrite <- xin_block. apply xin_bytes; auto. apply firstn_bytes; auto.
  - apply skipn_bytes; auto.
Qed.
Lemma shake_is_byte v m i : is_bytes m -> (shake f v m i < 256)%N.
Proof.
  intros M. unfold shake, shake_byte.
  set (l := Nat.iter _ _ _). assert (B : is_bytes l).
  { unfold l. set (q := i / _). induction q as [|q IH]; cbn [Nat.iter nat_rect].
    - apply absorb_n_bytes. { apply Forall_forall. intros x Hx. apply repeat_spec in Hx. subst. constructor. } apply pad_bytes; auto.
    - apply f_bytes. exact IH. }
  destruct (Nat.ltb_spec (i mod shake_rate v) (length l)).
  - exact (proj1 (Forall_forall _ _) B _ (nth_In l 0%N H)).
  - rewrite nth_overflow by assumption. constructor.
Qed.
Lemma shake_stream v m off len : is_bytes m -> map (shake f v m) (seq off len) = stream (shake f) v m off len.
Proof. intros M. unfold stream. apply map_ext. intros i. rewrite N.mod_small; auto. apply shake_is_byte. assumption. Qed.
End Bytes.

(** ** a last update of any length *)
Section Last.
Variable f : bytes -> bytes.
Hypothesis f_len : forall st : bytes, length st = 200 -> length (f st) = 200.
Lemma foldM_app {A S} (g : S -> A -> res S) l l' s : foldM g (l ++ l') s = bind (foldM g l s) (foldM g l').
Proof. revert s. induction l as [|a l IH]; intros s; cbn [foldM app bind]; auto. destruct (g s a); cbn [bind]; auto. Qed.
Definition enough (chunks : list bytes) (lens : list nat) : nat := 4 + list_sum (map (@length N) chunks) + list_sum lens.
Lemma sum_in l (n : nat) : In n l -> n <= list_sum l.
Proof. induction l as [|a l IH]; [contradiction|]. intros [E|E]; cbn; [subst|apply IH in E; unfold list_sum in E]; lia. Qed.
Lemma run_prefix fuel digest chunks : Forall (fun d => small (length d)) chunks -> 4 + list_sum (map (@length N) chunks) <= fuel ->
  exists k0 k, k_hash_init digest = Some k0 /\ foldM (k_hash_update f fuel) chunks k0 = Ok k /\ absorbing f k (digest =? 32) (concat chunks).
Proof.
  intros S F. destruct (init_absorbing f digest) as (k0 & E & A).
  destruct (updates_ok f f_len fuel _ chunks k0 [] A S) as (k & E1 & A1).
  { apply Forall_forall. intros d Hd. pose proof (sum_in _ _ (in_map (@length N) _ _ Hd)). lia. }
  exists k0, k. auto.
Qed.
Lemma last_ok digest chunks d lens : let rate := shake_rate (digest =? 32) in let pos := length (concat chunks) mod rate in
  Forall (fun d => small (length d)) chunks -> (N.of_nat (length d) < 2 ^ 61)%N -> Forall small lens ->
  pos = 0 \/ good_length rate pos (N.of_nat (length d)) ->
  exists fuel0, forall fuel, fuel0 <= fuel ->
    hash_run f fuel digest (chunks ++ [d]) lens = Ok (pieces (shake f (digest =? 32) (concat chunks ++ d)) 0 lens).
Proof.
  intros rate pos S D SL G. exists (enough chunks lens + length d). intros fuel F. unfold enough in F.
  destruct (run_prefix fuel digest chunks S ltac:(lia)) as (k0 & k & E0 & E1 & A).
  unfold hash_run. rewrite E0, foldM_app, E1. cbn [bind foldM].
  destruct (update_ok f f_len fuel k _ _ d A D ltac:(lia) G) as (k1 & E2 & A1). rewrite E2. cbn [bind].
  destruct (final_ok f f_len fuel k1 _ _ A1 ltac:(lia)) as (k2 & E3 & A2). rewrite E3. cbn [bind].
  apply squeezes_ok; auto. apply Forall_forall. intros n Hn. pose proof (sum_in _ _ Hn). lia.
Qed.
Lemma last_hangs digest chunks d lens : let rate := shake_rate (digest =? 32) in let pos := length (concat chunks) mod rate in
  Forall (fun d => small (length d)) chunks -> (N.of_nat (length d) < 2 ^ 61)%N ->
  pos <> 0 -> (2 ^ 32 <= N.of_nat (length d))%N -> (N.of_nat (length d) mod 2 ^ 32 + N.of_nat pos < N.of_nat rate)%N ->
  exists fuel0, forall fuel, fuel0 <= fuel -> hash_run f fuel digest (chunks ++ [d]) lens = OutOfFuel.
Proof.
  intros rate pos S D P H M. exists (enough chunks lens). intros fuel F. unfold enough in F.
  destruct (run_prefix fuel digest chunks S ltac:(lia)) as (k0 & k & E0 & E1 & A).
  unfold hash_run. rewrite E0, foldM_app, E1. cbn [bind foldM].
  rewrite (update_hangs f f_len fuel k _ _ d A); auto.
Qed.
Lemma last_overruns digest chunks d lens : let rate := shake_rate (digest =? 32) in let pos := length (concat chunks) mod rate in
  Forall (fun d => small (length d)) chunks -> (N.of_nat (length d) < 2 ^ 61)%N ->
  pos <> 0 -> (2 ^ 32 <= N.of_nat (length d) mod 2 ^ 32 + N.of_nat pos)%N ->
  exists fuel0, forall fuel, fuel0 <= fuel -> hash_run f fuel digest (chunks ++ [d]) lens = UB OutOfBounds.
Proof.
  intros rate pos S D P M. exists (enough chunks lens). intros fuel F. unfold enough in F.
  destruct (run_prefix fuel digest chunks S ltac:(lia)) as (k0 & k & E0 & E1 & A).
  pose proof (rate_bounds (digest =? 32)). pose proof (Nat.mod_upper_bound (length (concat chunks)) rate ltac:(unfold rate; lia)).
  unfold hash_run. rewrite E0, foldM_app, E1. cbn [bind foldM].
  rewrite (update_overruns f f_len fuel k _ _ d A); auto; try lia.
  intros E. subst d. cbn [length N.of_nat] in M. rewrite N.mod_0_l in M by discriminate. unfold pos, rate in *. lia.
Qed.
(** the three cases exclude each other and leave nothing out *)
Lemma lengths_cases rate pos len : pos < rate -> rate <= 200 ->
  pos = 0 \/ good_length rate pos len \/
  (pos <> 0 /\ (2 ^ 32 <= len)%N /\ (len mod 2 ^ 32 + N.of_nat pos < N.of_nat rate)%N) \/
  (pos <> 0 /\ (2 ^ 32 <= len mod 2 ^ 32 + N.of_nat pos)%N).
Proof.
  intros P R. destruct (Nat.eq_dec pos 0); auto. unfold good_length.
  destruct (N.lt_ge_cases (len + N.of_nat pos) (2 ^ 32)); auto.
  destruct (N.lt_ge_cases (len mod 2 ^ 32 + N.of_nat pos) (2 ^ 32)); [|tauto].
  destruct (N.lt_ge_cases (len mod 2 ^ 32 + N.of_nat pos) (N.of_nat rate)); [|tauto].
  right. right. left. repeat split; auto.
  destruct (N.lt_ge_cases len (2 ^ 32)); auto. rewrite N.mod_small in * by assumption. lia.
Qed.
Lemma squeeze_too_long digest chunks n lens : Forall (fun d => small (length d)) chunks -> (N.of_nat n < 2 ^ 61)%N ->
  (2 ^ 32 <= N.of_nat n)%N -> (N.of_nat n mod 2 ^ 32 < N.of_nat (shake_rate (digest =? 32)%nat))%N ->
  exists fuel0, forall fuel, fuel0 <= fuel -> hash_run f fuel digest chunks (n :: lens) = OutOfFuel.
Proof.
  intros S D H M. exists (enough chunks lens). intros fuel F. unfold enough in F.
  destruct (run_prefix fuel digest chunks S ltac:(lia)) as (k0 & k & E0 & E1 & A).
  unfold hash_run. rewrite E0, E1. cbn [bind].
  destruct (final_ok f f_len fuel k _ _ A ltac:(lia)) as (k2 & E3 & A2). rewrite E3. cbn [bind k_squeezes].
  pose proof (rate_bounds (digest =? 32)) as RB.
  assert (I0 : sp_idx (kh_sponge k2) = 0).
  { destruct A2 as (_ & _ & q & K & _). destruct q; [lia|]. cbn [Nat.mul] in K. lia. }
  rewrite (squeeze_hangs f f_len fuel k2 _ _ 0 n A2); auto; rewrite I0; lia.
Qed.
End Last.
