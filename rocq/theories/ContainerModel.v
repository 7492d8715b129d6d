(** RepContainer (types.h:46-77): one flat vector holding an object of [k_size] elements for every (repetition, party).
    A span returned by get is represented by its offset; reading or writing through it is an explicit access to the flat
    vector, so slots of different (repetition, party) share memory unless proved otherwise. *)
From Coq Require Import Arith List Bool Lia.
From Verif Require Import Prelude.
Import ListNotations.

(** the members, types.h:47-50 *)
Record container (A : Type) : Type := mkCont { k_data : list A; k_reps : nat; k_parties : nat; k_size : nat }.
Arguments mkCont {A}. Arguments k_data {A}. Arguments k_reps {A}. Arguments k_parties {A}. Arguments k_size {A}.

(** the constructor, types.h:53-56; [d] is the value-initialised element (0) *)
Definition k_new {A} (d : A) (reps parties size : nat) : container A :=
  mkCont (repeat d (reps * parties * size)) reps parties size.
(** the offset computed by get, types.h:59-60 and 64-65 (size_t arithmetic without wrap-around: the products are the sizes
    of objects in memory) *)
Definition k_offset {A} (c : container A) (rep party : nat) : nat :=
  rep * k_parties c * k_size c + party * k_size c.
(** get, types.h:58-67: the elements seen through the returned span *)
Definition k_get {A} (c : container A) (rep party : nat) : res (list A) := read (k_data c) (k_offset c rep party) (k_size c).
(** the offsets of the spans of get_repetition, types.h:69-76 *)
Definition k_repetition_offsets {A} (c : container A) (rep : nat) : list nat :=
  map (fun i => rep * k_parties c * k_size c + i * k_size c) (seq 0 (k_parties c)).
Definition k_get_repetition {A} (c : container A) (rep : nat) : res (list (list A)) :=
  mapM (fun o => read (k_data c) o (k_size c)) (k_repetition_offsets c rep).
(** writing v to the start of a span at offset [off] (std::copy, std::transform, hash_squeeze into span.data()): writes
    longer than the object run into the following memory, and are undefined behaviour at the end of the vector *)
Definition k_write {A} (c : container A) (off : nat) (v : list A) : res (container A) :=
  if off + length v <=? length (k_data c)
  then Ok (mkCont (firstn off (k_data c) ++ v ++ skipn (off + length v) (k_data c)) (k_reps c) (k_parties c) (k_size c))
  else UB OutOfBounds.
Definition k_put {A} (c : container A) (rep party : nat) (v : list A) : res (container A) := k_write c (k_offset c rep party) v.

(** the vector has the length the constructor gave it (no member function resizes it) *)
Definition k_ok {A} (c : container A) : Prop := length (k_data c) = k_reps c * k_parties c * k_size c.

Section Proofs.
Context {A : Type}.
Implicit Type c : container A.

Lemma k_new_ok (d : A) r p s : k_ok (k_new d r p s).
Proof. unfold k_ok, k_new. cbn. apply repeat_length. Qed.
Lemma k_offset_in c r p : r < k_reps c -> p < k_parties c -> k_offset c r p + k_size c <= k_reps c * k_parties c * k_size c.
Proof.
  intros Hr Hp. unfold k_offset.
  replace (r * k_parties c * k_size c + p * k_size c + k_size c) with ((r * k_parties c + p + 1) * k_size c) by ring.
  apply Nat.mul_le_mono_r. nia.
Qed.
Lemma k_offset_disjoint c r p r' p' : p < k_parties c -> p' < k_parties c -> (r, p) <> (r', p') ->
  k_offset c r p + k_size c <= k_offset c r' p' \/ k_offset c r' p' + k_size c <= k_offset c r p.
Proof.
  intros Hp Hp' Hn.
  assert (E : forall r p, k_offset c r p = (r * k_parties c + p) * k_size c) by (intros; unfold k_offset; ring).
  rewrite !E.
  destruct (Nat.lt_trichotomy (r * k_parties c + p) (r' * k_parties c + p')) as [L|[L|L]].
  - left. replace ((r * k_parties c + p) * k_size c + k_size c) with ((r * k_parties c + p + 1) * k_size c) by ring.
    apply Nat.mul_le_mono_r. lia.
  - exfalso. apply Hn. assert (r = r') by nia. subst. f_equal. lia.
  - right. replace ((r' * k_parties c + p') * k_size c + k_size c) with ((r' * k_parties c + p' + 1) * k_size c) by ring.
    apply Nat.mul_le_mono_r. lia.
Qed.
Lemma k_get_ok c r p : k_ok c -> r < k_reps c -> p < k_parties c ->
  k_get c r p = Ok (slice (k_data c) (k_offset c r p) (k_size c)) /\ length (slice (k_data c) (k_offset c r p) (k_size c)) = k_size c.
Proof.
  intros Hk Hr Hp. pose proof (k_offset_in c r p Hr Hp). unfold k_ok in Hk.
  split; [apply read_ok|apply slice_length]; lia.
Qed.
Lemma k_repetition_eq c r : k_get_repetition c r = mapM (k_get c r) (seq 0 (k_parties c)).
Proof. unfold k_get_repetition, k_repetition_offsets, k_get, k_offset. generalize (seq 0 (k_parties c)).
  intros l. induction l; cbn [map mapM]; [reflexivity|]. rewrite IHl. reflexivity. Qed.

Lemma nth_slice {B} (l : list B) o n i d : i < n -> nth i (slice l o n) d = nth (o + i) l d.
Proof.
  intros H. unfold slice. revert l o. 
  assert (F : forall m (l : list B), nth i (firstn (i + S m) l) d = nth i l d).
  { clear. induction i; destruct l; cbn; auto. }
  intros l o. replace n with (i + S (n - S i)) by lia. rewrite F. clear.
  revert l; induction o; destruct l; cbn; auto. destruct i; reflexivity.
Qed.
Lemma nth_splice {B} (l v : list B) o i d : o + length v <= length l ->
  nth i (firstn o l ++ v ++ skipn (o + length v) l) d = if (o <=? i) && (i <? o + length v) then nth (i - o) v d else nth i l d.
Proof.
  intros H. assert (Lf : length (firstn o l) = o) by (rewrite firstn_length; lia).
  destruct (Nat.leb_spec o i); cbn [andb].
  - rewrite app_nth2 by lia. rewrite Lf. destruct (Nat.ltb_spec i (o + length v)).
    + rewrite app_nth1 by lia. reflexivity.
    + rewrite app_nth2 by lia. replace i with (o + length v + (i - o - length v)) at 2 by lia.
      generalize (i - o - length v), (o + length v). intros a b. clear. revert l; induction b; destruct l; cbn; auto.
      destruct a; reflexivity.
  - rewrite app_nth1 by lia. clear - H0. revert l o H0. induction i; destruct l, o; cbn; intros; auto; try lia.
    apply IHi. lia.
Qed.
Lemma list_eq_nth {B} (l l' : list B) : length l = length l' -> (forall i, i < length l -> forall d, nth i l d = nth i l' d) -> l = l'.
Proof.
  revert l'; induction l; destruct l'; cbn; intros L H; try lia; auto. f_equal.
  - apply (H 0 ltac:(lia) a).
  - apply IHl; [lia|]. intros i Hi d. apply (H (S i) ltac:(lia) d).
Qed.

Lemma k_put_ok c r p v : k_ok c -> r < k_reps c -> p < k_parties c -> length v = k_size c ->
  exists c', k_put c r p v = Ok c' /\ k_ok c' /\ k_reps c' = k_reps c /\ k_parties c' = k_parties c /\ k_size c' = k_size c /\
    k_get c' r p = Ok v /\
    (forall r' p', r' < k_reps c -> p' < k_parties c -> (r', p') <> (r, p) -> k_get c' r' p' = k_get c r' p').
Proof.
  intros Hk Hr Hp Hv. pose proof (k_offset_in c r p Hr Hp) as Hb.
  assert (HL : k_offset c r p + length v <= length (k_data c)) by (unfold k_ok in Hk; lia).
  unfold k_put, k_write. rewrite (proj2 (Nat.leb_le _ _) HL). eexists; split; [reflexivity|].
  set (c' := mkCont _ _ _ _).
  assert (Hk' : k_ok c').
  { unfold k_ok, c'. cbn [k_data k_reps k_parties k_size]. rewrite !app_length, firstn_length, skipn_length.
    unfold k_ok in Hk. rewrite <- Hk. lia. }
  split; [exact Hk'|]. do 3 (split; [reflexivity|]).
  split.
  - destruct (k_get_ok c' r p Hk' Hr Hp) as [E L]. rewrite E. f_equal.
    apply list_eq_nth; [rewrite L; symmetry; exact Hv|]. rewrite L. intros i Hi d.
    rewrite nth_slice by exact Hi. unfold c' at 2. cbn [k_data].
    rewrite nth_splice by exact HL.
    change (k_offset c' r p) with (k_offset c r p). change (k_size c') with (k_size c) in Hi.
    rewrite (proj2 (Nat.leb_le _ _)), (proj2 (Nat.ltb_lt _ _)) by lia. cbn [andb]. f_equal. lia.
  - intros r' p' Hr' Hp' Hn.
    destruct (k_get_ok c' r' p' Hk' Hr' Hp') as [E L]. destruct (k_get_ok c r' p' Hk Hr' Hp') as [E0 L0].
    rewrite E, E0. f_equal.
    apply list_eq_nth; [rewrite L, L0; reflexivity|]. rewrite L. intros i Hi d.
    change (k_size c') with (k_size c) in *. change (k_offset c' r' p') with (k_offset c r' p') in *.
    rewrite !nth_slice by exact Hi. unfold c'. cbn [k_data]. rewrite nth_splice by exact HL.
    destruct (k_offset_disjoint c r p r' p' Hp Hp' ltac:(congruence)) as [D|D];
      destruct (Nat.leb_spec (k_offset c r p) (k_offset c r' p' + i)),
               (Nat.ltb_spec (k_offset c r' p' + i) (k_offset c r p + length v)); cbn [andb]; try reflexivity; lia.
Qed.

(** a read-only view of the container as a list of repetitions of parties' objects, the shape used in BanquetModel *)
Definition k_view c : list (list (list A)) :=
  map (fun r => map (fun p => slice (k_data c) (k_offset c r p) (k_size c)) (seq 0 (k_parties c))) (seq 0 (k_reps c)).
Lemma nth_error_seq s n i : i < n -> nth_error (seq s n) i = Some (s + i).
Proof. revert s i; induction n; intros s i H; [lia|]. destruct i; cbn [seq nth_error]; [f_equal; lia|]. rewrite IHn by lia. f_equal. lia. Qed.
Lemma get_map_seq {B} (f : nat -> B) n i : i < n -> get (map f (seq 0 n)) i = Ok (f i).
Proof. intros H. unfold get. rewrite nth_error_map, nth_error_seq by exact H. reflexivity. Qed.
Lemma k_view_get c r p : k_ok c -> r < k_reps c -> p < k_parties c -> (do row <- get (k_view c) r; get row p) = k_get c r p.
Proof.
  intros Hk Hr Hp. unfold k_view. rewrite get_map_seq by exact Hr. cbn [bind]. rewrite get_map_seq by exact Hp.
  symmetry. apply k_get_ok; assumption.
Qed.
Lemma upd_map_seq {B} (f : nat -> B) n i x s : upd (map f (seq s n)) i x = map (fun j => if j =? s + i then x else f j) (seq s n).
Proof.
  revert s i. induction n; intros s i; [reflexivity|]. destruct i; cbn [seq map upd].
  - rewrite Nat.add_0_r, Nat.eqb_refl. f_equal. apply map_ext_in. intros j Hj. apply in_seq in Hj.
    destruct (Nat.eqb_spec j s); [lia|reflexivity].
  - destruct (Nat.eqb_spec s (s + S i)); [lia|]. f_equal. rewrite IHn. apply map_ext. intros j.
    replace (S s + i) with (s + S i) by lia. reflexivity.
Qed.
Lemma k_view_put c r p v c' : k_ok c -> r < k_reps c -> p < k_parties c -> length v = k_size c -> k_put c r p v = Ok c' ->
  k_view c' = upd (k_view c) r (upd (nth r (k_view c) []) p v).
Proof.
  intros Hk Hr Hp Hv E. destruct (k_put_ok c r p v Hk Hr Hp Hv) as (c1 & E1 & Hk' & R1 & P1 & S1 & G1 & G2).
  rewrite E in E1. injection E1 as <-.
  unfold k_view at 2 3. rewrite upd_map_seq. unfold k_view. rewrite R1. apply map_ext_in. intros r' Hr'. apply in_seq in Hr'. cbn [Nat.add].
  assert (G : forall p', p' < k_parties c ->
    slice (k_data c') (k_offset c' r' p') (k_size c') = if (r' =? r) && (p' =? p) then v else slice (k_data c) (k_offset c r' p') (k_size c)).
  { intros p' Hp'.
    assert (HA : k_get c' r' p' = Ok (slice (k_data c') (k_offset c' r' p') (k_size c')))
      by (apply k_get_ok; [assumption|rewrite R1; lia|rewrite P1; assumption]).
    assert (HB : k_get c r' p' = Ok (slice (k_data c) (k_offset c r' p') (k_size c))) by (apply k_get_ok; [assumption|lia|assumption]).
    destruct (Nat.eqb_spec r' r), (Nat.eqb_spec p' p); cbn [andb]; subst; try (rewrite G1 in HA; congruence).
    all: rewrite G2 in HA; try lia; try congruence; intros X; injection X; intros; congruence. }
  rewrite P1. destruct (Nat.eqb_spec r' r).
  - subst r'. rewrite (nth_indep _ [] (map (fun p0 => slice (k_data c) (k_offset c 0 p0) (k_size c)) (seq 0 (k_parties c))))
      by (rewrite map_length, seq_length; lia).
    rewrite (map_nth (fun r0 => map (fun p0 => slice (k_data c) (k_offset c r0 p0) (k_size c)) (seq 0 (k_parties c)))).
    rewrite seq_nth by lia. cbn [Nat.add]. rewrite upd_map_seq. apply map_ext_in. intros p' Hp'. apply in_seq in Hp'.
    rewrite (G p' ltac:(lia)). rewrite ?Nat.eqb_refl. reflexivity.
  - apply map_ext_in. intros p' Hp'. apply in_seq in Hp'. rewrite (G p' ltac:(lia)).
    destruct (Nat.eqb_spec r' r); [contradiction|reflexivity].
Qed.
End Proofs.
