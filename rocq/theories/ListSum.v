(** Lists indexed by [seq 0 n], and exclusive-or sums over such indices. *)
From Coq Require Import Arith NArith List Bool Lia.
From Verif Require Import Prelude FieldSpec AesShares ContainerModel.
Import ListNotations.

(** ** loops over [seq 0 n] *)
Lemma mapM_seq {B} (f : nat -> res B) (g : nat -> B) n : (forall i, i < n -> f i = Ok (g i)) -> mapM f (seq 0 n) = Ok (map g (seq 0 n)).
Proof. intros H. apply mapM_ok. intros a Ha. apply in_seq in Ha. apply H. lia. Qed.
Lemma map_seq_ext {B} (f g : nat -> B) s n : (forall i, s <= i < s + n -> f i = g i) -> map f (seq s n) = map g (seq s n).
Proof. intros H. apply map_ext_in. intros a Ha. apply in_seq in Ha. apply H. lia. Qed.
Lemma nth_map_seq {B} (f : nat -> B) n i d : i < n -> nth i (map f (seq 0 n)) d = f i.
Proof. intros H. apply nth_error_nth. rewrite nth_error_map, nth_error_seq by exact H. reflexivity. Qed.
Lemma length_map_seq {B} (f : nat -> B) s n : length (map f (seq s n)) = n.
Proof. rewrite map_length, seq_length. reflexivity. Qed.
Lemma list_map_nth {B} (l : list B) d : l = map (fun i => nth i l d) (seq 0 (length l)).
Proof.
  apply list_eq_nth; [rewrite length_map_seq; reflexivity|]. intros i Hi d'. rewrite nth_map_seq by exact Hi. apply nth_indep. exact Hi.
Qed.
Lemma list_map_nth' {B} (l : list B) n d : length l = n -> l = map (fun i => nth i l d) (seq 0 n).
Proof. intros <-. apply list_map_nth. Qed.
Lemma mapM_seq_inv {B} (f : nat -> res B) n l d : mapM f (seq 0 n) = Ok l ->
  length l = n /\ forall i, i < n -> f i = Ok (nth i l d).
Proof.
  intros H. pose proof (mapM_length _ _ _ H) as L. rewrite seq_length in L. split; [exact L|]. intros i Hi.
  apply mapM_ok_inv in H. assert (G : forall s m (r : list B), Forall2 (fun a b => f a = Ok b) (seq s m) r -> forall j, j < m -> f (s + j) = Ok (nth j r d)).
  { clear. intros s m. revert s. induction m; intros s r H j Hj; [lia|]. cbn [seq] in H. inversion H; subst.
    destruct j; [rewrite Nat.add_0_r; assumption|]. rewrite <- plus_n_Sm. cbn [nth]. apply (IHm (S s) l'); [assumption|lia]. }
  apply (G 0 n l H i Hi).
Qed.
Lemma map_nth_seq {A B} (f : A -> B) l d n : length l = n -> map f l = map (fun i => f (nth i l d)) (seq 0 n).
Proof. intros L. rewrite (list_map_nth' l n d L) at 1. rewrite map_map. reflexivity. Qed.
Lemma concat_map_seq_length {B} (f : nat -> list B) n k : (forall i, i < n -> length (f i) = k) -> length (concat (map f (seq 0 n))) = n * k.
Proof.
  intros H. assert (G : forall s m, s + m <= n -> length (concat (map f (seq s m))) = m * k).
  { intros s m. revert s. induction m; intros s Hs; [reflexivity|]. cbn [seq map concat]. rewrite app_length, IHm, H by lia. lia. }
  apply (G 0 n). lia.
Qed.
Lemma set_map_seq {B} (f : nat -> B) n i x : i < n -> set (map f (seq 0 n)) i x = Ok (map (fun j => if j =? i then x else f j) (seq 0 n)).
Proof.
  intros H. unfold set. rewrite length_map_seq. apply Nat.ltb_lt in H. rewrite H. rewrite upd_map_seq. reflexivity.
Qed.

(** ** by blocks of four *)
Lemma concat_blocks {B} (g : nat -> B) k : concat (map (fun b => [g b; g (b + 1); g (b + 2); g (b + 3)]) (map (fun b => 4 * b) (seq 0 k))) = map g (seq 0 (4 * k)).
Proof.
  induction k; [reflexivity|]. rewrite seq_S, !map_app, concat_app, IHk. cbn [map concat]. rewrite app_nil_r.
  replace (4 * S k) with (4 * k + 4) by lia. rewrite seq_app, map_app. cbn [Nat.add seq map].
  replace (S (4 * k)) with (4 * k + 1) by lia. replace (S (4 * k + 1)) with (4 * k + 2) by lia. replace (S (4 * k + 2)) with (4 * k + 3) by lia.
  reflexivity.
Qed.
Lemma by4_eq {B} n (f4 : nat -> res (list B)) (f1 : nat -> res B) (g : nat -> B) :
  (forall p, p + 3 < n -> f4 p = Ok [g p; g (p + 1); g (p + 2); g (p + 3)]) -> (forall p, p < n -> f1 p = Ok (g p)) ->
  (do xs <- mapM f4 (map (fun b => 4 * b) (seq 0 (n / 4)));
   do ys <- mapM f1 (seq (4 * (n / 4)) (n - 4 * (n / 4)));
   Ok (concat xs ++ ys)) = Ok (map g (seq 0 n)).
Proof.
  intros H4 H1. assert (Hn : 4 * (n / 4) <= n) by (apply Nat.mul_div_le; lia).
  rewrite (mapM_ok f4 (fun p => [g p; g (p + 1); g (p + 2); g (p + 3)])).
  - cbn [bind]. rewrite (mapM_ok f1 g).
    + cbn [bind]. rewrite concat_blocks. rewrite <- map_app, <- seq_app. do 3 f_equal. lia.
    + intros p Hp. apply in_seq in Hp. apply H1. lia.
  - intros p Hp. apply in_map_iff in Hp. destruct Hp as (b & <- & Hb). apply in_seq in Hb. apply H4. lia.
Qed.

(** ** sums of numbers *)
Definition gsum (n : nat) (f : nat -> N) : N := xsum (map f (seq 0 n)).
Lemma xsum_app a b : xsum (a ++ b) = N.lxor (xsum a) (xsum b).
Proof. unfold xsum. induction a; [reflexivity|]. cbn [app fold_right]. rewrite IHa, N.lxor_assoc. reflexivity. Qed.
Lemma gsum_0 f : gsum 0 f = 0%N. Proof. reflexivity. Qed.
Lemma gsum_S n f : gsum (S n) f = N.lxor (gsum n f) (f n).
Proof. unfold gsum. rewrite seq_S, map_app, xsum_app. cbn. rewrite N.lxor_0_r. reflexivity. Qed.
Lemma gsum_ext n f g : (forall i, i < n -> f i = g i) -> gsum n f = gsum n g.
Proof. intros H. unfold gsum. f_equal. apply map_seq_ext. intros. apply H. lia. Qed.
Lemma gsum_add n f g : gsum n (fun i => N.lxor (f i) (g i)) = N.lxor (gsum n f) (gsum n g).
Proof.
  induction n; [reflexivity|]. rewrite !gsum_S, IHn. rewrite !N.lxor_assoc. f_equal. rewrite <- !N.lxor_assoc. f_equal. apply N.lxor_comm.
Qed.
Lemma gsum_zero n : gsum n (fun _ => 0%N) = 0%N.
Proof. induction n; [reflexivity|]. rewrite gsum_S, IHn. reflexivity. Qed.
Lemma gsum_swap n m f : gsum n (fun i => gsum m (fun j => f i j)) = gsum m (fun j => gsum n (fun i => f i j)).
Proof.
  induction n; [symmetry; apply gsum_zero|]. rewrite gsum_S, IHn.
  rewrite (gsum_ext m (fun j => gsum (S n) (fun i => f i j)) (fun j => N.lxor (gsum n (fun i => f i j)) (f n j))) by (intros j _; exact (gsum_S n (fun i => f i j))).
  rewrite gsum_add. reflexivity.
Qed.
Lemma gsum_one n f m : m < n -> (forall i, i < n -> i <> m -> f i = 0%N) -> gsum n f = f m.
Proof.
  induction n; [lia|]. intros Hm H. rewrite gsum_S. destruct (Nat.eq_dec m n) as [->|Hn].
  - rewrite (gsum_ext n f (fun _ => 0%N)) by (intros; apply H; lia). rewrite gsum_zero. reflexivity.
  - rewrite IHn, (H n) by (auto; intros; try apply H; lia). apply N.lxor_0_r.
Qed.
(** the summand of index m, from the sum and the other summands *)
Definition gothers (n m : nat) (f : nat -> N) : N := gsum n (fun p => if p =? m then 0%N else f p).
Lemma gsum_others n m f : m < n -> gsum n f = N.lxor (f m) (gothers n m f).
Proof.
  intros Hm. unfold gothers. transitivity (N.lxor (gsum n (fun p => if p =? m then f p else 0%N)) (gsum n (fun p => if p =? m then 0%N else f p))).
  - rewrite <- gsum_add. apply gsum_ext. intros i _. destruct (i =? m); [rewrite N.lxor_0_r|]; reflexivity.
  - f_equal. rewrite (gsum_one n _ m) by (auto; intros i _ Hi; apply Nat.eqb_neq in Hi; rewrite Hi; reflexivity). rewrite Nat.eqb_refl. reflexivity.
Qed.
Lemma gsum_recover n m f : m < n -> N.lxor (gsum n f) (gothers n m f) = f m.
Proof. intros Hm. rewrite (gsum_others n m f Hm), N.lxor_assoc, N.lxor_nilpotent, N.lxor_0_r. reflexivity. Qed.
Lemma gothers_ext n m f g : (forall i, i < n -> i <> m -> f i = g i) -> gothers n m f = gothers n m g.
Proof. intros H. apply gsum_ext. intros i Hi. destruct (Nat.eqb_spec i m); [reflexivity|]. apply H; assumption. Qed.
Lemma gsum_fill n m f x : m < n -> gsum n (fun p => if p =? m then N.lxor x (gothers n m f) else f p) = x.
Proof.
  intros Hm. set (y := gothers n m f). rewrite (gsum_others n m) by exact Hm. rewrite Nat.eqb_refl.
  rewrite (gothers_ext n m _ f) by (intros i _ Hi; apply Nat.eqb_neq in Hi; rewrite Hi; reflexivity).
  fold y. rewrite N.lxor_assoc, N.lxor_nilpotent, N.lxor_0_r. reflexivity.
Qed.
Lemma fold_left_xor {A} (g : A -> N) l a : fold_left (fun acc v => N.lxor acc (g v)) l a = N.lxor a (xsum (map g l)).
Proof.
  revert a; induction l; intros b; cbn [fold_left map xsum fold_right]; [symmetry; apply N.lxor_0_r|]. rewrite IHl. apply N.lxor_assoc.
Qed.
Lemma foldM_xor {A} (f : A -> res N) (g : A -> N) l a : (forall v, In v l -> f v = Ok (g v)) ->
  foldM (fun acc v => do x <- f v; Ok (N.lxor acc x)) l a = Ok (N.lxor a (xsum (map g l))).
Proof.
  revert a; induction l; intros b H; cbn [foldM map xsum fold_right]; [rewrite N.lxor_0_r; reflexivity|].
  rewrite H by (left; reflexivity). cbn [bind]. rewrite IHl by (intros; apply H; right; assumption). rewrite N.lxor_assoc. reflexivity.
Qed.

(** ** sums of byte strings *)
Definition bsum (len n : nat) (f : nat -> bytes) : bytes := xall len (map f (seq 0 n)).
Definition bothers (len n m : nat) (f : nat -> bytes) : bytes := bsum len n (fun p => if p =? m then zeros len else f p).
Lemma xall_str len l : Forall (str len) l -> str len (xall len l). Proof. apply str_xall. Qed.
Lemma xall_len len l : Forall (fun b : bytes => length b = len) l -> length (xall len l) = len.
Proof. induction 1; cbn [xall fold_right]; [apply repeat_length|]. rewrite xorl_length. fold (xall len l). rewrite IHForall. rewrite H. apply Nat.min_id. Qed.
Lemma xall_app len a b : Forall (fun b : bytes => length b = len) b -> xall len (a ++ b) = xorl (xall len a) (xall len b).
Proof.
  intros Hb. unfold xall. induction a; cbn [app fold_right].
  - symmetry. apply xorl_zeros_l. apply xall_len. exact Hb.
  - rewrite IHa, xorl_assoc. reflexivity.
Qed.
Lemma bsum_len len n f : (forall i, i < n -> length (f i) = len) -> length (bsum len n f) = len.
Proof. intros H. apply xall_len. apply Forall_map, Forall_forall. intros i Hi. apply in_seq in Hi. apply H. lia. Qed.
Lemma bsum_str len n f : (forall i, i < n -> str len (f i)) -> str len (bsum len n f).
Proof. intros H. apply str_xall. apply Forall_map, Forall_forall. intros i Hi. apply in_seq in Hi. apply H. lia. Qed.
Lemma bsum_S len n f : length (f n) = len -> bsum len (S n) f = xorl (bsum len n f) (f n).
Proof.
  intros H. unfold bsum. rewrite seq_S, map_app, xall_app by (repeat constructor; exact H). cbn [map xall fold_right Nat.add].
  rewrite xorl_zeros_r by exact H. reflexivity.
Qed.
Lemma bsum_ext len n f g : (forall i, i < n -> f i = g i) -> bsum len n f = bsum len n g.
Proof. intros H. unfold bsum. f_equal. apply map_seq_ext. intros. apply H. lia. Qed.
Lemma nth_xall len l i : Forall (fun b : bytes => length b = len) l -> i < len -> nth i (xall len l) 0%N = xsum (map (fun b => nth i b 0%N) l).
Proof.
  intros H Hi. induction H as [|b l Hb H IH]; cbn [xall fold_right map xsum].
  - unfold zeros. apply nth_repeat.
  - rewrite nth_xorl by (rewrite Hb; symmetry; apply (xall_len len l H)). fold (xall len l). rewrite IH. reflexivity.
Qed.
Lemma nth_bsum len n f i : (forall p, p < n -> length (f p) = len) -> i < len -> nth i (bsum len n f) 0%N = gsum n (fun p => nth i (f p) 0%N).
Proof.
  intros H Hi. unfold bsum, gsum. rewrite nth_xall; [rewrite map_map; reflexivity| |exact Hi].
  apply Forall_map, Forall_forall. intros p Hp. apply in_seq in Hp. apply H. lia.
Qed.
Lemma bytes_eq_nth (a b : bytes) : length a = length b -> (forall i, i < length a -> nth i a 0%N = nth i b 0%N) -> a = b.
Proof. intros L H. apply (nth_ext a b 0%N 0%N L). exact H. Qed.
Lemma bsum_others len n m f : m < n -> (forall p, p < n -> length (f p) = len) -> bsum len n f = xorl (f m) (bothers len n m f).
Proof.
  intros Hm H. unfold bothers.
  assert (H' : forall p, p < n -> length (if p =? m then zeros len else f p) = len) by (intros p Hp; destruct (p =? m); [apply repeat_length|auto]).
  apply bytes_eq_nth.
  - rewrite xorl_length, !bsum_len, H by auto. symmetry. apply Nat.min_id.
  - intros i Hi. rewrite bsum_len in Hi by auto. rewrite nth_xorl by (rewrite bsum_len, H by auto; reflexivity).
    rewrite !nth_bsum by auto. rewrite (gsum_others n m) by exact Hm. f_equal. apply gsum_ext. intros p _.
    destruct (p =? m); [unfold zeros; symmetry; apply nth_repeat|reflexivity].
Qed.
Lemma xorl_cancel_r a b : length a = length b -> xorl (xorl a b) b = a.
Proof. intros L. rewrite xorl_assoc, xorl_nilpotent. apply xorl_zeros_r. exact L. Qed.
Lemma xorl_cancel_l a b : length a = length b -> xorl a (xorl a b) = b.
Proof. intros L. rewrite <- xorl_assoc, xorl_nilpotent. apply xorl_zeros_l. auto. Qed.
Lemma bothers_len len n m f : (forall p, p < n -> p <> m -> length (f p) = len) -> length (bothers len n m f) = len.
Proof. intros H. apply bsum_len. intros p Hp. destruct (Nat.eqb_spec p m); [apply repeat_length|auto]. Qed.
Lemma bothers_ext len n m f g : (forall i, i < n -> i <> m -> f i = g i) -> bothers len n m f = bothers len n m g.
Proof. intros H. apply bsum_ext. intros i Hi. destruct (Nat.eqb_spec i m); [reflexivity|]. apply H; assumption. Qed.
Lemma bsum_recover len n m f : m < n -> (forall p, p < n -> length (f p) = len) -> xorl (bsum len n f) (bothers len n m f) = f m.
Proof.
  intros Hm H. rewrite (bsum_others len n m) by auto. apply xorl_cancel_r. rewrite bothers_len by auto. auto.
Qed.
Lemma bsum_fill len n m f x : m < n -> length x = len -> (forall p, p < n -> p <> m -> length (f p) = len) ->
  bsum len n (fun p => if p =? m then xorl x (bothers len n m f) else f p) = x.
Proof.
  intros Hm Hx H. assert (L : length (bothers len n m f) = len) by (apply bothers_len; auto). set (y := bothers len n m f) in *.
  rewrite (bsum_others len n m); [|exact Hm|].
  - rewrite Nat.eqb_refl. rewrite (bothers_ext len n m _ f) by (intros i _ Hi; apply Nat.eqb_neq in Hi; rewrite Hi; reflexivity).
    fold y. apply xorl_cancel_r. congruence.
  - intros p Hp. destruct (Nat.eqb_spec p m); [rewrite xorl_length, Hx, L; apply Nat.min_id|auto].
Qed.
(** xor of the delta into the first share *)
Lemma bsum_first len n (f : nat -> bytes) d : 0 < n -> length d = len -> (forall p, p < n -> length (f p) = len) ->
  bsum len n (fun p => if p =? 0 then xorl d (f 0) else f p) = xorl d (bsum len n f).
Proof.
  intros Hn Hd H. rewrite (bsum_others len n 0); [|exact Hn|].
  - rewrite (bsum_others len n 0 f) by auto. cbn [Nat.eqb]. rewrite xorl_assoc. f_equal. f_equal.
    apply bothers_ext. intros i _ Hi. apply Nat.eqb_neq in Hi. rewrite Hi. reflexivity.
  - intros p Hp. destruct (Nat.eqb_spec p 0); [rewrite xorl_length, Hd, H by lia; apply Nat.min_id|auto].
Qed.
Lemma foldM_xor_into len (l : list bytes) d : length d = len -> Forall (fun b : bytes => length b = len) l ->
  foldM (fun d s => xor_into s d) l d = Ok (xorl d (xall len l)).
Proof.
  intros Hd H. revert d Hd. induction H as [|b l Hb H IH]; intros d Hd; cbn [foldM].
  - cbn [xall fold_right]. rewrite xorl_zeros_r by exact Hd. reflexivity.
  - rewrite xor_into_ok by congruence. cbn [bind]. rewrite IH by (rewrite xorl_length, Hb, Hd; apply Nat.min_id).
    cbn [xall fold_right]. f_equal. fold (xall len l). rewrite (xorl_comm b d). apply xorl_assoc.
Qed.
