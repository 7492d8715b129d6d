(** Outcomes of running C++ code, checked accesses and byte-string helpers.
    Nothing in this file models a specific function of /repo, except where cited. *)
From Coq Require Import Arith NArith ZArith List Bool Lia.
Import ListNotations.

(** C++ exceptions thrown by the modelled code. *)
Inductive exn : Set :=
| EInvalidParams      (* "invalid parameters"            banquet.cpp:281,319,437,958 *)
| ESizeMismatch       (* "adding vectors of different sizes" field.cpp:406,418,431   *)
| EInterpSizes        (* "invalid sizes for interpolation"   field.cpp:360          *)
| ESanity             (* "final sanity check is wrong"       banquet.cpp:768        *)
| EModifiedSig        (* "modified signature between deserialization and verify" banquet.cpp:830 *)
| ELambda             (* "modulus for that specific lambda not implemented." field.cpp:309 *)
| EInvalidSet         (* "invalid parameter set" banquet_instances.cpp:51           *)
| EBadFunctionCall    (* std::function called while empty (field.cpp:137,157)       *)
| EBadOptional        (* std::optional::value() on nullopt (e.g. banquet.cpp:343)   *)
| ELength.            (* std::length_error from an impossible vector size           *)

(** Reasons for undefined behaviour (gsl contract violations, which terminate, are also reported here). *)
Inductive ubr : Set :=
| OutOfBounds         (* access outside a buffer *)
| EmptyFront.         (* front() of an empty vector *)

Inductive res (A : Type) : Type :=
| Ok (a : A)
| Throw (e : exn)
| UB (r : ubr)
| OutOfFuel.          (* a while(true) loop did not finish within the fuel given to the model *)
Arguments Ok {A} a.
Arguments Throw {A} e.
Arguments UB {A} r.
Arguments OutOfFuel {A}.

Definition bind {A B} (x : res A) (f : A -> res B) : res B :=
  match x with
  | Ok a => f a
  | Throw e => Throw e
  | UB r => UB r
  | OutOfFuel => OutOfFuel
  end.

Declare Scope res_scope.
Notation "'do' x <- e ; f" := (bind e (fun x => f))
  (at level 200, x pattern, e at level 100, f at level 200, right associativity) : res_scope.
Open Scope res_scope.

Fixpoint mapM {A B} (f : A -> res B) (l : list A) : res (list B) :=
  match l with
  | [] => Ok []
  | a :: l' => do b <- f a; do bs <- mapM f l'; Ok (b :: bs)
  end.

(** left-to-right state-passing loop *)
Fixpoint foldM {A S} (f : S -> A -> res S) (l : list A) (s : S) : res S :=
  match l with
  | [] => Ok s
  | a :: l' => do s' <- f s a; foldM f l' s'
  end.

(** vector access v[i] *)
Definition get {A} (l : list A) (i : nat) : res A :=
  match nth_error l i with Some a => Ok a | None => UB OutOfBounds end.

(** vector write v[i] = x *)
Fixpoint upd {A} (l : list A) (i : nat) (x : A) : list A :=
  match l, i with
  | [], _ => []
  | _ :: l', O => x :: l'
  | a :: l', S i' => a :: upd l' i' x
  end.
Definition set {A} (l : list A) (i : nat) (x : A) : res (list A) :=
  if i <? length l then Ok (upd l i x) else UB OutOfBounds.

(** read len elements from offset off *)
Definition slice {A} (l : list A) (off len : nat) : list A := firstn len (skipn off l).
Definition read {A} (l : list A) (off len : nat) : res (list A) :=
  if off + len <=? length l then Ok (slice l off len) else UB OutOfBounds.

Definition byte := N.
Definition bytes := list N.
Definition is_byte (b : N) : Prop := (b < 256)%N.
Definition is_bytes (l : bytes) : Prop := Forall is_byte l.

(** pointwise xor *)
Fixpoint xorl (a b : bytes) : bytes :=
  match a, b with
  | x :: a', y :: b' => N.lxor x y :: xorl a' b'
  | _, _ => []
  end.

(** std::transform(begin a, end a, begin b, begin b, bit_xor): xors all of [a] into the front of [b]. *)
Definition xor_into (a b : bytes) : res bytes :=
  if length a <=? length b then Ok (xorl a b ++ skipn (length a) b) else UB OutOfBounds.

(** std::copy(begin a, end a, begin b) *)
Definition copy_into {A} (a b : list A) : res (list A) :=
  if length a <=? length b then Ok (a ++ skipn (length a) b) else UB OutOfBounds.

Definition zeros (n : nat) : bytes := repeat 0%N n.

(** little-endian encoding of the low [n] bytes of a word, and back *)
Fixpoint le_bytes (n : nat) (w : N) : bytes :=
  match n with
  | O => []
  | S n' => (w mod 256)%N :: le_bytes n' (w / 256)%N
  end.
Fixpoint le_word (l : bytes) : N :=
  match l with
  | [] => 0%N
  | b :: l' => (b + 256 * le_word l')%N
  end.

(** ** Generic lemmas *)

Lemma bind_ok {A B} (x : res A) (f : A -> res B) b :
  bind x f = Ok b -> exists a, x = Ok a /\ f a = Ok b.
Proof. destruct x; simpl; intros; try discriminate. eauto. Qed.

Lemma mapM_ok {A B} (f : A -> res B) (g : A -> B) l :
  (forall a, In a l -> f a = Ok (g a)) -> mapM f l = Ok (map g l).
Proof.
  induction l; simpl; intros H; auto.
  rewrite (H a) by auto. simpl. rewrite IHl by auto. reflexivity.
Qed.

Lemma mapM_ok_inv {A B} (f : A -> res B) l r :
  mapM f l = Ok r -> Forall2 (fun a b => f a = Ok b) l r.
Proof.
  revert r; induction l; simpl; intros r H.
  - inversion H; constructor.
  - apply bind_ok in H as [b [Hb H]]. apply bind_ok in H as [bs [Hbs H]].
    inversion H; subst. constructor; auto.
Qed.

Lemma mapM_ext {A B} (f g : A -> res B) l :
  (forall a, In a l -> f a = g a) -> mapM f l = mapM g l.
Proof.
  induction l; simpl; intros H; auto.
  rewrite (H a) by auto. rewrite IHl by auto. reflexivity.
Qed.

Lemma mapM_length {A B} (f : A -> res B) l r : mapM f l = Ok r -> length r = length l.
Proof. intros H. apply mapM_ok_inv in H. induction H; simpl; auto. Qed.

Lemma get_ok {A} (l : list A) i d : i < length l -> get l i = Ok (nth i l d).
Proof. intros H. unfold get. rewrite (nth_error_nth' l d H). reflexivity. Qed.

Lemma get_inv {A} (l : list A) i a : get l i = Ok a -> nth_error l i = Some a /\ i < length l.
Proof.
  unfold get. destruct (nth_error l i) eqn:E; intros H; inversion H; subst.
  split; auto. apply nth_error_Some. congruence.
Qed.

Lemma upd_length {A} (l : list A) i x : length (upd l i x) = length l.
Proof. revert i; induction l; destruct i; simpl; auto. Qed.

Lemma nth_upd {A} (l : list A) i j x d :
  nth j (upd l i x) d = if (j =? i) && (j <? length l) then x else nth j l d.
Proof.
  revert i j; induction l; intros i j; simpl.
  - destruct j; rewrite andb_false_r; reflexivity.
  - destruct i, j; simpl; auto.
    rewrite IHl. change (S j <? S (length l)) with (j <? length l). reflexivity.
Qed.

Lemma slice_length {A} (l : list A) off len : off + len <= length l -> length (slice l off len) = len.
Proof. intros. unfold slice. rewrite firstn_length, skipn_length. lia. Qed.

Lemma read_ok {A} (l : list A) off len : off + len <= length l -> read l off len = Ok (slice l off len).
Proof. intros H. unfold read. apply Nat.leb_le in H. rewrite H. reflexivity. Qed.

Lemma read_inv {A} (l : list A) off len r :
  read l off len = Ok r -> off + len <= length l /\ r = slice l off len.
Proof. unfold read. destruct (Nat.leb_spec (off + len) (length l)); intros H0; inversion H0; auto. Qed.

Lemma xorl_length a b : length (xorl a b) = Nat.min (length a) (length b).
Proof. revert b; induction a; destruct b; simpl; auto. Qed.

Lemma xorl_length_eq a b n : length a = n -> length b = n -> length (xorl a b) = n.
Proof. intros. rewrite xorl_length. lia. Qed.

Lemma xorl_comm a b : xorl a b = xorl b a.
Proof. revert b; induction a; destruct b; simpl; auto. rewrite N.lxor_comm, IHa. reflexivity. Qed.

Lemma xorl_assoc a b c : xorl (xorl a b) c = xorl a (xorl b c).
Proof. revert b c; induction a; destruct b, c; simpl; auto. rewrite N.lxor_assoc, IHa. reflexivity. Qed.

Lemma xorl_nilpotent a : xorl a a = zeros (length a).
Proof. induction a; simpl; auto. rewrite N.lxor_nilpotent, IHa. reflexivity. Qed.

Lemma xorl_zeros_l a n : length a = n -> xorl (zeros n) a = a.
Proof. intros <-. induction a; simpl; auto. f_equal; auto. Qed.

Lemma xorl_zeros_r a n : length a = n -> xorl a (zeros n) = a.
Proof. intros. rewrite xorl_comm. apply xorl_zeros_l; auto. Qed.

Lemma nth_xorl a b i : length a = length b -> nth i (xorl a b) 0%N = N.lxor (nth i a 0%N) (nth i b 0%N).
Proof.
  revert b i; induction a; destruct b; simpl; intros i H; try discriminate.
  - destruct i; reflexivity.
  - destruct i; simpl; auto.
Qed.

Lemma xor_into_ok a b : length a = length b -> xor_into a b = Ok (xorl a b).
Proof.
  intros H. unfold xor_into. rewrite H, Nat.leb_refl, skipn_all, app_nil_r. reflexivity.
Qed.

Lemma copy_into_ok {A} (a b : list A) : length a = length b -> copy_into a b = Ok a.
Proof.
  intros H. unfold copy_into. rewrite H, Nat.leb_refl, skipn_all, app_nil_r. reflexivity.
Qed.

Lemma is_bytes_nth l i : is_bytes l -> is_byte (nth i l 0%N).
Proof.
  intros H. destruct (Nat.lt_ge_cases i (length l)).
  - eapply Forall_nth in H; eauto.
  - rewrite nth_overflow by auto. unfold is_byte. lia.
Qed.

Lemma lxor_lt_pow2 a b n : (a < 2 ^ n)%N -> (b < 2 ^ n)%N -> (N.lxor a b < 2 ^ n)%N.
Proof.
  intros Ha Hb.
  assert (E : (N.lxor a b = (N.lxor a b) mod (2 ^ n))%N).
  { apply N.bits_inj. intros i.
    destruct (N.lt_ge_cases i n) as [Hi|Hi].
    - rewrite N.mod_pow2_bits_low by auto. reflexivity.
    - rewrite N.mod_pow2_bits_high by auto.
      rewrite N.lxor_spec.
      rewrite <- (N.mod_small a (2 ^ n)%N) by auto.
      rewrite <- (N.mod_small b (2 ^ n)%N) by auto.
      rewrite !N.mod_pow2_bits_high by auto. reflexivity. }
  rewrite E. apply N.mod_lt. apply N.pow_nonzero. discriminate.
Qed.

Lemma is_byte_lxor a b : is_byte a -> is_byte b -> is_byte (N.lxor a b).
Proof. intros. apply (lxor_lt_pow2 a b 8); auto. Qed.

Lemma is_bytes_xorl a b : is_bytes a -> is_bytes b -> is_bytes (xorl a b).
Proof.
  revert b; induction a; destruct b; simpl; intros Ha Hb; try constructor;
    inversion Ha; inversion Hb; subst.
  - apply is_byte_lxor; auto.
  - apply IHa; auto.
Qed.

Lemma is_bytes_zeros n : is_bytes (zeros n).
Proof. apply Forall_forall. intros x H. apply repeat_spec in H. subst. unfold is_byte. lia. Qed.

Lemma is_bytes_slice l o n : is_bytes l -> is_bytes (slice l o n).
Proof.
  intros H. unfold slice. apply Forall_forall. intros x Hx.
  unfold is_bytes in H. rewrite Forall_forall in H. apply H.
  rewrite <- (firstn_skipn o l). apply in_or_app. right.
  rewrite <- (firstn_skipn n (skipn o l)). apply in_or_app. auto.
Qed.

Lemma le_bytes_length n w : length (le_bytes n w) = n.
Proof. revert w; induction n; simpl; auto. Qed.

Lemma le_bytes_is_bytes n w : is_bytes (le_bytes n w).
Proof.
  revert w; induction n; simpl; intros; constructor.
  - unfold is_byte. apply N.mod_lt. discriminate.
  - apply IHn.
Qed.

Lemma le_word_bytes n w : (w < 256 ^ N.of_nat n)%N -> le_word (le_bytes n w) = w.
Proof.
  revert w; induction n; intros w H.
  - simpl in *. lia.
  - cbn [le_bytes le_word]. rewrite IHn.
    + symmetry. rewrite N.add_comm. apply N.div_mod. discriminate.
    + apply N.div_lt_upper_bound; [discriminate|].
      rewrite Nat2N.inj_succ, N.pow_succ_r' in H. auto.
Qed.

Lemma le_word_lt l : is_bytes l -> (le_word l < 256 ^ N.of_nat (length l))%N.
Proof.
  induction l; intros H; cbn [length le_word].
  - reflexivity.
  - inversion H; subst. specialize (IHl H3). unfold is_byte in H2.
    rewrite Nat2N.inj_succ, N.pow_succ_r'.
    remember (256 ^ N.of_nat (length l))%N as P. lia.
Qed.

Lemma le_bytes_word l : is_bytes l -> le_bytes (length l) (le_word l) = l.
Proof.
  induction l; intros H; cbn [length le_word le_bytes]; auto.
  inversion H; subst. unfold is_byte in H2.
  rewrite (N.add_comm a), N.mul_comm. f_equal.
  - rewrite N.add_comm, N.mod_add by discriminate. apply N.mod_small; auto.
  - rewrite N.div_add_l by discriminate. rewrite N.div_small by auto.
    rewrite N.add_0_r. apply IHl; auto.
Qed.
