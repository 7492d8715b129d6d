(** Calls that follow calls which were cut off *)
From Coq Require Import Arith NArith List Bool Lia.
From Verif Require Import Prelude FieldModel Instances HashModel TreeModel BanquetModel History ThreadModel ThreadFacts ThreadApi ThreadRead CutModel.
Import ListNotations.

(** programs that access the 256 entries of the table only *)
Fixpoint inside {A} (p : prog A) : Prop :=
  match p with Done _ => True | Rd l k => valid l /\ forall v, inside (k v) | Wr l v q => valid l /\ inside q end.
Definition agree (m m' : mem) : Prop := forall l, valid l -> m l = m' l.
Lemma agree_store m m' l v : agree m m' -> agree (store m l v) (store m' l v).
Proof. intros A l' V. unfold store. destruct (loc_eqb l' l); [reflexivity|apply A, V]. Qed.
Lemma run_inside {A} (p : prog A) : forall m m', inside p -> agree m m' -> run p m = run p m'.
Proof.
  induction p as [a|l k IH|l v p IH]; intros m m' I E; cbn [run]; [reflexivity| |].
  - rewrite (E l (proj1 I)). apply IH; [apply I|exact E].
  - apply IH; [apply I|apply agree_store, E].
Qed.
Lemma cut_inside {A} : forall n (p : prog A) m m', inside p -> agree m m' -> agree (cut n p m) (cut n p m').
Proof.
  induction n as [|n IH]; intros p m m' I E; [exact E|]. destruct p as [a|l k|l v p]; cbn [cut]; [exact E| |].
  - rewrite (E l (proj1 I)). apply IH; [apply I|exact E].
  - apply IH; [apply I|apply agree_store, E].
Qed.
Lemma inside_bind {A B} (p : prog A) (f : A -> prog B) : inside p -> (forall a, inside (f a)) -> inside (pbind p f).
Proof. induction p as [a|l k IH|l v p IH]; cbn [inside pbind]; intros I F; [apply F|split; [apply I|]; intros v; apply IH; [apply I|exact F]|split; [apply I|apply IH; [apply I|exact F]]]. Qed.
Lemma inside_read_only {A} (p : prog A) : read_only p -> inside p.
Proof. induction p as [a|l k IH|l v p IH]; cbn [read_only inside]; intros R; [exact R|split; [apply R|]; intros v; apply IH, R|destruct R]. Qed.
Lemma inside_entries {A} start pow (rest : prog (res A)) : inside rest -> forall todo idx, start + idx + todo <= 256 -> inside (lut_entries todo idx start pow rest).
Proof.
  intros R. induction todo as [|todo IH]; intros idx L; cbn [lut_entries inside]; [exact R|]. split; [cbn; lia|]. intros v. split; [cbn; lia|]. apply IH. lia.
Qed.
Lemma inside_bits {A} gen (rest : prog (res A)) : inside rest -> forall todo bit pow, todo + bit = 8 -> inside (lut_bits todo bit pow gen rest).
Proof.
  intros R. induction todo as [|todo IH]; intros bit pow E; cbn [lut_bits]; [exact R|]. apply inside_entries.
  - cbn [inside]. split; [exact Logic.I|]. intros v. destruct (reduce_of v); [apply IH; lia|exact Logic.I].
  - assert (L : 2 ^ S bit <= 2 ^ 8) by (apply Nat.pow_le_mono_r; lia). change (2 ^ 8) with 256 in L. cbn [Nat.pow] in L. lia.
Qed.
Lemma inside_init {A} lam (rest : prog (res A)) : inside rest -> inside (init_prog lam rest).
Proof.
  intros R. assert (C : forall size modulus gen, inside (init_case size modulus gen rest)).
  { intros size modulus gen. unfold init_case, init_lut_prog. cbn [inside valid]. repeat (split; [lia || exact Logic.I|]). apply inside_bits; [exact R|reflexivity]. }
  unfold init_prog. destruct lam as [|[|[|[|[|[|[|lam]]]]]]]; first [exact Logic.I | apply C].
Qed.

Section Facts.
Variables (H : oracle) (impl : call -> prog (res answer)).
Hypothesis Himpl : implements H impl.
Lemma impl_reads x : read_only (impl x).
Proof. pose proof (Himpl x) as E. destruct x; [rewrite E; exact Logic.I|apply E..|rewrite E; exact Logic.I]. Qed.
Lemma inside_call x : inside (call_prog impl x).
Proof. pose proof (inside_read_only _ (impl_reads x)) as R. destruct x; cbn [call_prog]; try exact R; apply inside_init, R. Qed.
Lemma inside_thread xs : inside (thread impl xs).
Proof. induction xs as [|x xs IH]; cbn [thread]; [exact Logic.I|]. apply inside_bind; [apply inside_call|]. intros a. apply inside_bind; [exact IH|]. intros b. exact Logic.I. Qed.

Lemma thread_agree xs st m : reachable st -> agree m (mem_of st) -> run (thread impl xs) m = answers H st xs.
Proof. intros R E. rewrite (run_inside _ m (mem_of st) (inside_thread xs) E). apply thread_alone; auto. Qed.

(** the call initialises the field: nothing of the memory before matters *)
Lemma after_init x xs m J : match x with CSign _ _ J' _ _ | CVerify _ _ J' _ _ _ => J' = J | _ => False end -> (exists c, init_extension_field (lambda J) = Ok c) ->
  run (thread impl (x :: xs)) m = answers H None (x :: xs).
Proof.
  intros HX [c Hc]. cbn [thread answers].
  assert (CI : answer_of H None x = rest_of H (Some c) x /\ step H None x = Some c /\ call_prog impl x = init_prog (lambda J) (impl x)).
  { apply (call_init H impl (lambda J) c Hc). destruct x; try contradiction; rewrite HX; reflexivity. }
  destruct CI as (-> & -> & E). rewrite ThreadApi.run_bind, ThreadApi.run_bind. cbn [run]. rewrite E.
  destruct (init_goes (lambda J) c (impl x) (fun _ => False) Hc) as (F & V & G).
  destruct (goes_run _ _ _ _ _ _ G m (fun l W => match W with end)) as (m' & E1 & E2 & K & _).
  assert (AG : agree m' (mem_of (Some c))) by (intros l W; apply K, V, W).
  assert (RC : reachable (Some c)) by (exists (lambda J); exact Hc).
  rewrite E1, E2, (read_only_end _ _ (impl_reads x)), (thread_agree xs (Some c) m' RC AG). f_equal.
  rewrite (run_inside _ m' (mem_of (Some c)) (inside_read_only _ (impl_reads x)) AG).
  pose proof (Himpl x) as IX. destruct x; try contradiction; apply IX, RC.
Qed.

(** calls that were cut off after the initialisation *)
Lemma cut_read_only {A} : forall n (p : prog A) m, read_only p -> cut n p m = m.
Proof. induction n as [|n IH]; intros p m R; [reflexivity|]. destruct p as [a|l k|l v p]; cbn [cut]; [reflexivity|apply IH, R|destruct R]. Qed.
Lemma cut_goes M {A} K (p p' : prog A) n F : goes M K p p' n F -> forall j m, knows M K m -> exists m', cut (n + j) p m = cut j p' m' /\ knows M F m'.
Proof.
  induction 1 as [K p|K l k a n F Kl _ IH|K l v p a n F Ev _ IH]; intros j m Kn.
  - exists m. split; [reflexivity|exact Kn].
  - cbn [plus cut]. rewrite (Kn l Kl). apply IH, Kn.
  - cbn [plus cut]. apply IH. intros l' [->|K']; [rewrite store_same; exact Ev|]. subst v. exact (knows_store M K m l Kn l' K').
Qed.
Lemma cut_step x n st m : reachable st -> agree m (mem_of st) -> init_steps <= n -> agree (cut n (call_prog impl x) m) (mem_of (step H st x)).
Proof.
  intros R E L.
  assert (W : match x with CSign _ _ _ _ _ | CVerify _ _ _ _ _ _ => True | _ => call_prog impl x = impl x /\ step H st x = st end) by (destruct x; auto).
  assert (D : (exists J, match x with CSign _ _ J' _ _ | CVerify _ _ J' _ _ _ => J' = J | _ => False end) \/ (call_prog impl x = impl x /\ step H st x = st)) by (destruct x; [right; exact W|left; eexists; reflexivity|left; eexists; reflexivity|right; exact W..]).
  destruct D as [[J HJ]|[E1 E2]]; [|rewrite E1, E2, cut_read_only by apply impl_reads; exact E]. clear W.
  destruct (init_ok_or (lambda J)) as [[c Hc]|Ht].
  - assert (CI : answer_of H st x = rest_of H (Some c) x /\ step H st x = Some c /\ call_prog impl x = init_prog (lambda J) (impl x)).
    { apply (call_init H impl (lambda J) c Hc). destruct x; try contradiction; rewrite HJ; reflexivity. }
    destruct CI as (_ & -> & ->). destruct (init_goes (lambda J) c (impl x) (fun _ => False) Hc) as (F & V & G).
    destruct (cut_goes _ _ _ _ _ _ G (n - init_steps) m (fun l W => match W with end)) as (m' & EC & K).
    replace (init_steps + (n - init_steps)) with n in EC by lia. rewrite EC, cut_read_only by apply impl_reads. intros l Vl. apply K, V, Vl.
  - assert (X : call_prog impl x = Done (Throw ELambda) /\ step H st x = st).
    { destruct x; try contradiction; subst; cbn [call_prog step]; rewrite (init_throws _ _ _ Ht); (split; [reflexivity|]); unfold sign, verify, with_field, st_init; rewrite Ht; destruct st; reflexivity. }
    destruct X as [-> ->]. destruct n; exact E.
Qed.
Lemma cut_history past : forall st m, reachable st -> agree m (mem_of st) -> Forall (fun xn => init_steps <= snd xn) past ->
  agree (cut_off impl past m) (mem_of (fold_left (step H) (map fst past) st)).
Proof.
  induction past as [|[x n] past IH]; intros st m R E F; [exact E|]. inversion F as [|? ? F1 F2]; subst. cbn [cut_off map fold_left fst].
  apply IH; [apply step_reachable, R|apply cut_step; assumption|exact F2].
Qed.
Lemma history_reachable past : forall st, reachable st -> reachable (fold_left (step H) past st).
Proof. induction past as [|x past IH]; intros st R; [exact R|]. cbn [fold_left]. apply IH, step_reachable, R. Qed.
Lemma cut_anywhere past m x xs : match x with CSign _ _ J _ _ | CVerify _ _ J _ _ _ => exists c, init_extension_field (lambda J) = Ok c | _ => False end ->
  exists n m', exec (repeat 0 n) ([thread impl (x :: xs)], cut_off impl past m) = ([Done (answers H None (x :: xs))], m').
Proof.
  intros HX. destruct (exec_alone (thread impl (x :: xs)) (cut_off impl past m)) as [n E]. eexists n, _. rewrite E. f_equal. f_equal. f_equal.
  destruct x as [| ? ? J ? ?| ? ? J ? ? ?| | |]; try contradiction; apply after_init with (J := J); auto.
Qed.
Lemma cut_later : exists k, k <= 600 /\ forall st past xs, reachable st -> Forall (fun xn => k <= snd xn) past ->
  exists n m', exec (repeat 0 n) ([thread impl xs], cut_off impl past (mem_of st)) = ([Done (answers H (fold_left (step H) (map fst past) st) xs)], m').
Proof.
  exists init_steps. split; [apply Nat.leb_le; vm_compute; reflexivity|]. intros st past xs R F. destruct (exec_alone (thread impl xs) (cut_off impl past (mem_of st))) as [n E]. eexists n, _. rewrite E. f_equal. f_equal. f_equal.
  apply thread_agree; [apply history_reachable, R|]. apply cut_history; [exact R|intros l _; reflexivity|exact F].
Qed.
End Facts.
