(** Facts about interleaved calls (C56) *)
From Coq Require Import Arith NArith ZArith List Bool Lia.
From Verif Require Import Prelude FieldModel FieldExtra Instances HashModel TreeModel BanquetModel History ThreadModel.
Import ListNotations.

Lemma loc_eqb_eq l l' : loc_eqb l l' = true <-> l = l'.
Proof. destruct l, l'; cbn; split; intros E; try discriminate; try reflexivity; [apply Nat.eqb_eq in E; subst; reflexivity|injection E as ->; apply Nat.eqb_refl]. Qed.
Lemma store_same m l v : store m l v l = v.
Proof. unfold store. rewrite (proj2 (loc_eqb_eq l l) eq_refl). reflexivity. Qed.
Lemma store_other m l v l' : l' <> l -> store m l v l' = m l'.
Proof. intros N. unfold store. destruct (loc_eqb l' l) eqn:E; [apply loc_eqb_eq in E; contradiction|reflexivity]. Qed.
Lemma run_ext {A} (p : prog A) : forall m m', (forall l, m l = m' l) -> run p m = run p m'.
Proof.
  induction p as [a|l k IH|l v p IH]; intros m m' E; cbn [run]; [reflexivity| |].
  - rewrite <- (E l). apply IH, E.
  - apply IH. intros l'. unfold store. destruct (loc_eqb l' l); [reflexivity|apply E].
Qed.

(** ** A program all of whose reads are of locations known to hold the values of M, and which writes only values of M *)
Section Same.
Variable M : mem.
Inductive tame {A} : (loc -> Prop) -> prog A -> A -> nat -> (loc -> Prop) -> Prop :=
| tame_done K a : tame K (Done a) a 0 K
| tame_rd (K : loc -> Prop) l k a n F : K l -> tame K (k (M l)) a n F -> tame K (Rd l k) a (S n) F
| tame_wr (K : loc -> Prop) l p a n F : tame (fun l' => l' = l \/ K l') p a n F -> tame K (Wr l (M l) p) a (S n) F.
Lemma tame_wr' {A} (K : loc -> Prop) l v (p : prog A) a n F : v = M l -> tame (fun l' => l' = l \/ K l') p a n F -> tame K (Wr l v p) a (S n) F.
Proof. intros ->. apply tame_wr. Qed.
Lemma tame_bind {A B} K (p : prog A) a n F : tame K p a n F -> forall (f : A -> prog B) b n' F', tame F (f a) b n' F' -> tame K (pbind p f) b (n + n') F'.
Proof. induction 1 as [K a|K l k a n F Kl _ IH|K l p a n F _ IH]; intros f b n' F' T; cbn [pbind plus]; [exact T|constructor; auto..]. Qed.
Lemma tame_read_only {A} (p : prog A) : read_only p -> exists n, forall K : loc -> Prop, (forall l, valid l -> K l) -> tame K p (run p M) n K.
Proof.
  induction p as [a|l k IH|l v p IH]; cbn [read_only run]; intros R.
  - exists 0. intros K _. constructor.
  - destruct (IH (M l) (proj2 R (M l))) as [n T]. exists (S n). intros K F. constructor; [apply F, R|auto].
  - destruct R.
Qed.

(** the knowledge of every thread stays right, whoever moves *)
Definition knows (K : loc -> Prop) (m : mem) : Prop := forall l, K l -> m l = M l.
Definition all_tame {A} (as_ : list A) (ts : list (prog A)) (ns : list nat) (m : mem) : Prop :=
  length ts = length as_ /\ length ns = length as_ /\
  forall t p, nth_error ts t = Some p -> exists K a n F, nth_error as_ t = Some a /\ nth_error ns t = Some n /\ tame K p a n F /\ knows K m.
Lemma nth_error_upd_same {A} (l : list A) i x : i < length l -> nth_error (upd l i x) i = Some x.
Proof. revert i. induction l as [|a l IH]; intros [|i]; cbn; intros L; try lia; [reflexivity|apply IH; lia]. Qed.
Lemma nth_error_upd_other {A} (l : list A) i j x : i <> j -> nth_error (upd l i x) j = nth_error l j.
Proof. revert i j. induction l as [|a l IH]; intros [|i] [|j]; cbn; intros N; try lia; try reflexivity. apply IH. lia. Qed.
Lemma upd_len {A} (l : list A) i x : length (upd l i x) = length l.
Proof. revert i. induction l as [|a l IH]; intros [|i]; cbn; auto. Qed.
Lemma knows_store K m l : knows K m -> knows K (store m l (M l)).
Proof. intros S l' Kl. unfold store. destruct (loc_eqb l' l) eqn:E; [apply loc_eqb_eq in E; subst; reflexivity|apply S, Kl]. Qed.
Lemma tstep_tame {A} (as_ : list A) ts ns m t : all_tame as_ ts ns m ->
  exists ns', all_tame as_ (fst (tstep t (ts, m))) ns' (snd (tstep t (ts, m))) /\
    (forall u n, nth_error ns u = Some n -> nth_error ns' u = Some (if u =? t then n - 1 else n)).
Proof.
  intros (L1 & L2 & T). unfold tstep. cbn [fst snd].
  assert (stay : forall p, nth_error ts t = p -> (p = None \/ exists a, p = Some (Done a)) -> forall u n, nth_error ns u = Some n -> nth_error ns u = Some (if u =? t then n - 1 else n)).
  { intros p Ep Hp u n En. destruct (Nat.eqb_spec u t) as [->|_]; [|exact En]. destruct Hp as [->|[a ->]].
    - apply nth_error_None in Ep. assert (t < length ns) by (apply nth_error_Some; congruence). lia.
    - destruct (T _ _ Ep) as (K & a' & n' & F & _ & En' & Tm & _). inversion Tm; subst. rewrite En in En'. injection En' as ->. rewrite En. reflexivity. }
  destruct (nth_error ts t) as [[a|l k|l v p]|] eqn:Et.
  - exists ns. split; [exact (conj L1 (conj L2 T))|]. eapply stay; [reflexivity|right; eexists; reflexivity].
  - destruct (T _ _ Et) as (K & a & n & F & Ea & En & Tm & Kn). inversion Tm as [|K0 l0 k0 a0 n0 F0 Kl Tk|]; subst.
    assert (Lt : t < length ts) by (apply nth_error_Some; congruence).
    exists (upd ns t n0). cbn [fst snd]. split; [split; [rewrite upd_len; exact L1|split; [rewrite upd_len; exact L2|]]|].
    + intros u q Eu. destruct (Nat.eq_dec t u) as [<-|N].
      * rewrite nth_error_upd_same in Eu by exact Lt. injection Eu as <-. exists K, a, n0, F. rewrite nth_error_upd_same by lia. rewrite (Kn l Kl). auto.
      * rewrite nth_error_upd_other in Eu by exact N. rewrite nth_error_upd_other by exact N. apply T. exact Eu.
    + intros u n1 Eu. destruct (Nat.eqb_spec u t) as [->|N].
      * rewrite nth_error_upd_same by lia. rewrite En in Eu. injection Eu as <-. f_equal. lia.
      * rewrite nth_error_upd_other by congruence. exact Eu.
  - destruct (T _ _ Et) as (K & a & n & F & Ea & En & Tm & Kn). inversion Tm as [| |K0 l0 p0 a0 n0 F0 Tp]; subst.
    assert (Lt : t < length ts) by (apply nth_error_Some; congruence).
    exists (upd ns t n0). cbn [fst snd]. split; [split; [rewrite upd_len; exact L1|split; [rewrite upd_len; exact L2|]]|].
    + intros u q Eu. destruct (Nat.eq_dec t u) as [<-|N].
      * rewrite nth_error_upd_same in Eu by exact Lt. injection Eu as <-. exists (fun l' => l' = l \/ K l'), a, n0, F. rewrite nth_error_upd_same by lia.
        split; [exact Ea|split; [reflexivity|split; [exact Tp|]]]. intros l' [->|Kl]; [apply store_same|]. apply (knows_store K m l Kn l' Kl).
      * rewrite nth_error_upd_other in Eu by exact N. rewrite nth_error_upd_other by exact N. destruct (T _ _ Eu) as (K' & a' & n' & F' & G1 & G2 & G3 & G4).
        exists K', a', n', F'. split; [exact G1|split; [exact G2|split; [exact G3|]]]. apply knows_store, G4.
    + intros u n1 Eu. destruct (Nat.eqb_spec u t) as [->|N].
      * rewrite nth_error_upd_same by lia. rewrite En in Eu. injection Eu as <-. f_equal. lia.
      * rewrite nth_error_upd_other by congruence. exact Eu.
  - exists ns. split; [exact (conj L1 (conj L2 T))|]. eapply stay; [reflexivity|left; reflexivity].
Qed.
Lemma exec_tame {A} (as_ : list A) sched : forall ts ns m, all_tame as_ ts ns m ->
  exists ns', all_tame as_ (fst (exec sched (ts, m))) ns' (snd (exec sched (ts, m))) /\
    (forall u n, nth_error ns u = Some n -> nth_error ns' u = Some (n - count_occ Nat.eq_dec sched u)).
Proof.
  induction sched as [|t sched IH]; intros ts ns m T; cbn [exec fold_left count_occ].
  - exists ns. split; [exact T|]. intros u n E. rewrite Nat.sub_0_r. exact E.
  - destruct (tstep_tame as_ ts ns m t T) as (ns1 & T1 & E1). destruct (tstep t (ts, m)) as [ts1 m1] eqn:Es. cbn [fst snd] in T1.
    destruct (IH _ _ _ T1) as (ns2 & T2 & E2). exists ns2. split; [exact T2|]. intros u n E. rewrite (E2 _ _ (E1 _ _ E)). f_equal.
    destruct (Nat.eq_dec t u) as [->|N]; [rewrite Nat.eqb_refl; lia|]. destruct (Nat.eqb_spec u t); [congruence|lia].
Qed.
Lemma tame_final {A} (as_ : list A) ts ns m t a n : all_tame as_ ts ns m -> nth_error as_ t = Some a -> nth_error ns t = Some n ->
  (forall b, nth_error ts t = Some (Done b) -> b = a) /\ (n = 0 -> nth_error ts t = Some (Done a)).
Proof.
  intros (L1 & L2 & T) Ea En. split.
  - intros b Eb. destruct (T _ _ Eb) as (K & a' & n' & F & Ea' & _ & Tm & _). inversion Tm; subst. congruence.
  - intros ->. destruct (nth_error ts t) as [p|] eqn:Et.
    + destruct (T _ _ Et) as (K & a' & n' & F & Ea' & En' & Tm & _). rewrite En in En'. injection En' as <-. inversion Tm; subst. congruence.
    + apply nth_error_None in Et. assert (t < length as_) by (apply nth_error_Some; congruence). lia.
Qed.

(** ** init_extension_field writes the values of its field *)
Inductive goes {A} : (loc -> Prop) -> prog A -> prog A -> nat -> (loc -> Prop) -> Prop :=
| goes_refl K p : goes K p p 0 K
| goes_rd (K : loc -> Prop) l k a n F : K l -> goes K (k (M l)) a n F -> goes K (Rd l k) a (S n) F
| goes_wr (K : loc -> Prop) l v p a n F : v = M l -> goes (fun l' => l' = l \/ K l') p a n F -> goes K (Wr l v p) a (S n) F.
Lemma goes_tame {A} K (p p' : prog A) n F : goes K p p' n F -> forall a n' F', tame F p' a n' F' -> tame K p a (n + n') F'.
Proof. induction 1; intros b n' F' T; cbn [plus]; [exact T|apply tame_rd; auto|apply tame_wr'; auto]. Qed.
Lemma goes_bind {A B} K (p p' : prog A) n F (f : A -> prog B) : goes K p p' n F -> goes K (pbind p f) (pbind p' f) n F.
Proof. induction 1; cbn [pbind]; [constructor|apply goes_rd; auto|apply goes_wr; auto]. Qed.
Definition full {A} (K : loc -> Prop) (p : prog A) (a : prog A) (n : nat) : Prop := exists F : loc -> Prop, (forall l, valid l -> F l) /\ goes K p a n F.
Lemma full_rd {A} (K : loc -> Prop) l (k : N -> prog A) a n : K l -> full K (k (M l)) a n -> full K (Rd l k) a (S n).
Proof. intros Kl (F & V & T). exists F. split; [exact V|]. apply goes_rd; assumption. Qed.
Lemma full_wr {A} (K : loc -> Prop) l v (p : prog A) a n : v = M l -> full (fun l' => l' = l \/ K l') p a n -> full K (Wr l v p) a (S n).
Proof. intros E (F & V & T). exists F. split; [exact V|]. apply goes_wr; assumption. Qed.
Fixpoint table_ok (red : N -> N) (gen : N) (todo bit : nat) (pow : N) : Prop :=
  match todo with
  | O => True
  | S n => (forall i, i < 2 ^ bit -> gadd (M (Llut i)) pow = M (Llut (2 ^ bit + i))) /\ table_ok red gen n (S bit) (gmul_with red pow gen)
  end.
Lemma tame_entries {A} (a : prog (res A)) n start pow rest : (forall i, i < start -> gadd (M (Llut i)) pow = M (Llut (start + i))) ->
  forall todo idx (K : loc -> Prop), idx + todo = start -> (forall l, l = Lsize \/ l = Lmod \/ l = Lred -> K l) -> (forall i, i < start + idx -> K (Llut i)) ->
  (forall K' : loc -> Prop, (forall l, l = Lsize \/ l = Lmod \/ l = Lred -> K' l) -> (forall i, i < 2 * start -> K' (Llut i)) -> full K' rest a n) ->
  full K (lut_entries todo idx start pow rest) a (2 * todo + n).
Proof.
  intros Tb. induction todo as [|todo IH]; intros idx K E Ks Ki R; cbn [lut_entries].
  - apply R; [exact Ks|]. intros i Li. apply Ki. lia.
  - replace (2 * S todo + n) with (S (S (2 * todo + n))) by lia. apply full_rd; [apply Ki; lia|]. rewrite Tb by lia. apply full_wr; [reflexivity|]. apply IH; [lia| | |exact R].
    + intros l Hl. right. apply Ks, Hl.
    + intros i Li. destruct (Nat.eq_dec i (start + idx)) as [->|Ni]; [left; reflexivity|right; apply Ki; lia].
Qed.
Fixpoint lut_steps (todo bit : nat) : nat := match todo with O => 0 | S n => 2 * 2 ^ bit + S (lut_steps n (S bit)) end.
Lemma tame_bits {A} (a : prog (res A)) n red gen rest : reduce_of (M Lred) = Some red ->
  (forall K' : loc -> Prop, (forall l, valid l -> K' l) -> full K' rest a n) ->
  forall todo bit pow (K : loc -> Prop), todo + bit = 8 -> table_ok red gen todo bit pow -> (forall l, l = Lsize \/ l = Lmod \/ l = Lred -> K l) -> (forall i, i < 2 ^ bit -> K (Llut i)) ->
  full K (lut_bits todo bit pow gen rest) a (lut_steps todo bit + n).
Proof.
  intros Er R. induction todo as [|todo IH]; intros bit pow K E Tb Ks Ki; cbn [lut_bits lut_steps].
  - apply R. replace bit with 8 in Ki by lia. intros [| | |i]; intros V; [apply Ks; auto..|apply Ki, V].
  - destruct Tb as [T1 T2]. rewrite <- Nat.add_assoc. apply tame_entries; [exact T1|lia|exact Ks|intros i Li; apply Ki; lia|].
    intros K' Ks' Ki'. cbn [plus]. apply full_rd; [apply Ks'; auto|]. rewrite Er. apply IH; [lia|exact T2|exact Ks'|]. intros i Li. apply Ki'. rewrite Nat.pow_succ_r' in Li. exact Li.
Qed.
Definition init_steps : nat := 5 + lut_steps 7 1.
Lemma tame_case {A} (a : prog (res A)) n red size modulus gen rest (K : loc -> Prop) : M Lmod = modulus -> M Lred = N.of_nat size -> M Lsize = N.of_nat size ->
  M (Llut 0) = 0%N -> M (Llut 1) = 1%N -> reduce_of (N.of_nat size) = Some red -> table_ok red gen 7 1 gen ->
  (forall K' : loc -> Prop, (forall l, valid l -> K' l) -> full K' rest a n) -> full K (init_case size modulus gen rest) a (init_steps + n).
Proof.
  intros E1 E2 E3 E4 E5 E6 Tb R. unfold init_case, init_lut_prog, init_steps. cbn [plus]. do 5 (apply full_wr; [congruence|]).
  apply (tame_bits a n red gen rest); [congruence|exact R|reflexivity|exact Tb| |].
  - intros l [->|[->| ->]]; tauto.
  - intros [|[|i]] Li; [tauto|tauto|cbn in Li; lia].
Qed.
End Same.

Definition table_okb (lut : list N) (red : N -> N) (gen : N) := fix go (todo bit : nat) (pow : N) : bool :=
  match todo with
  | O => true
  | S n => forallb (fun i => N.eqb (gadd (nth i lut 0%N) pow) (nth (2 ^ bit + i) lut 0%N)) (seq 0 (2 ^ bit)) && go n (S bit) (gmul_with red pow gen)
  end.
Lemma table_okb_ok c red gen : forall todo bit pow, table_okb (fc_lut c) red gen todo bit pow = true -> table_ok (mem_of (Some c)) red gen todo bit pow.
Proof.
  induction todo as [|todo IH]; intros bit pow E; cbn [table_ok]; [exact Logic.I|]. cbn [table_okb] in E. apply andb_prop in E. destruct E as [E1 E2]. split; [|apply IH, E2].
  intros i Li. cbn [mem_of]. apply N.eqb_eq. exact (proj1 (forallb_forall _ _) E1 i (proj2 (in_seq _ _ _) (conj (Nat.le_0_l i) Li))).
Qed.
Lemma init_goes {A} lam c (rest : prog (res A)) (K : loc -> Prop) : init_extension_field lam = Ok c -> full (mem_of (Some c)) K (init_prog lam rest) rest init_steps.
Proof.
  intros Hc. assert (R : forall K' : loc -> Prop, (forall l, valid l -> K' l) -> full (mem_of (Some c)) K' rest rest 0) by (intros K' V; exists K'; split; [exact V|constructor]).
  rewrite <- (Nat.add_0_r init_steps).
  do 7 (destruct lam as [|lam]; [try discriminate Hc; injection Hc as <-;
    (eapply tame_case; [reflexivity|reflexivity|reflexivity|vm_compute; reflexivity|vm_compute; reflexivity|reflexivity|apply table_okb_ok; vm_compute; reflexivity|exact R])|]).
  discriminate Hc.
Qed.

(** ** Threads *)
(** every sign or verify call uses the field of lam *)
Definition uses (lam : nat) (x : call) : Prop := match x with CSign _ _ J _ _ | CVerify _ _ J _ _ _ => lambda J = lam | _ => True end.
(** serialize and deserialize come after a sign or verify call of the same thread *)
Fixpoint field_first (seen : bool) (xs : list call) : Prop :=
  match xs with
  | [] => True
  | x :: xs => match x with
    | CSign _ _ _ _ _ | CVerify _ _ _ _ _ _ => field_first true xs
    | CSerialize _ _ | CDeserialize _ _ _ _ => seen = true /\ field_first seen xs
    | CKeygen _ _ _ | CInstance _ => field_first seen xs
    end
  end.
Section Threads.
Variables (H : oracle) (impl : call -> prog (res answer)).
Hypothesis Himpl : implements H impl.
Variables (lam : nat) (c : fctx).
Hypothesis Hc : init_extension_field lam = Ok c.
Notation M := (mem_of (Some c)).
Lemma rest_full x : match x with CKeygen _ _ _ | CInstance _ => False | _ => True end -> exists n, forall K : loc -> Prop, (forall l, valid l -> K l) -> tame M K (impl x) (rest_of H (Some c) x) n K.
Proof.
  intros Hx. assert (RO : read_only (impl x) /\ run (impl x) M = rest_of H (Some c) x).
  { specialize (Himpl x). destruct x; try destruct Hx; destruct Himpl as [R E]; (split; [exact R|apply E; exists lam; exact Hc]). }
  destruct RO as [R <-]. apply tame_read_only, R.
Qed.
Lemma call_init st x : match x with CSign _ _ J _ _ | CVerify _ _ J _ _ _ => lambda J = lam | _ => False end ->
  answer_of H st x = rest_of H (Some c) x /\ step H st x = Some c /\ call_prog impl x = init_prog lam (impl x).
Proof.
  destruct x; try contradiction; intros E; cbn [answer_of rest_of step call_prog]; unfold sign, verify, with_field, st_init; rewrite E, Hc; auto.
Qed.
Lemma thread_tame : forall xs seen st (K : loc -> Prop), field_first seen xs -> Forall (uses lam) xs -> (seen = true -> (forall l, valid l -> K l) /\ st = Some c) ->
  exists n F, tame M K (thread impl xs) (answers H st xs) n F.
Proof.
  induction xs as [|x xs IH]; intros seen st K Hf Hu Hs; cbn [thread answers]; [exists 0, K; constructor|].
  inversion Hu as [|? ? Hx Hxs]; subst.
  assert (next : forall seen' K' n p a F, tame M K' p a n F -> field_first seen' xs -> (seen' = true -> (forall l, valid l -> F l) /\ step H st x = Some c) -> a = answer_of H st x ->
    exists n' F', tame M K' (pbind p (fun r => pbind (thread impl xs) (fun rs => Done (r :: rs)))) (answer_of H st x :: answers H (step H st x) xs) n' F').
  { intros seen' K' n p a F T Hf' Hs' ->. destruct (IH seen' (step H st x) F Hf' Hxs Hs') as (n2 & F2 & T2). exists (n + (n2 + 0)), F2.
    eapply tame_bind; [exact T|]. eapply tame_bind; [exact T2|]. constructor. }
  assert (init : match x with CSign _ _ J _ _ | CVerify _ _ J _ _ _ => lambda J = lam | _ => False end -> field_first true xs ->
    exists n F, tame M K (pbind (call_prog impl x) (fun r => pbind (thread impl xs) (fun rs => Done (r :: rs)))) (answer_of H st x :: answers H (step H st x) xs) n F).
  { intros E Hf'. destruct (call_init st x E) as (E1 & E2 & E3). destruct (rest_full x) as [n T]; [destruct x; try contradiction; exact Logic.I|].
    destruct (init_goes lam c (impl x) K Hc) as (F & V & TF). apply goes_tame with (a := rest_of H (Some c) x) (n' := n) (F' := F) in TF; [|apply T, V].
    rewrite E3. apply (next true K (init_steps + n) (init_prog lam (impl x)) (rest_of H (Some c) x) F TF Hf'); [intros _; split; assumption|symmetry; exact E1]. }
  assert (plain : match x with CSerialize _ _ | CDeserialize _ _ _ _ => True | _ => False end -> seen = true -> field_first true xs ->
    exists n F, tame M K (pbind (call_prog impl x) (fun r => pbind (thread impl xs) (fun rs => Done (r :: rs)))) (answer_of H st x :: answers H (step H st x) xs) n F).
  { intros E Es Hf'. destruct (Hs Es) as [V Est]. destruct (rest_full x) as [n T]; [destruct x; try contradiction; exact Logic.I|].
    replace (call_prog impl x) with (impl x) by (destruct x; try contradiction; reflexivity).
    apply (next true K n (impl x) (rest_of H (Some c) x) K (T K V) Hf').
    - intros _. split; [exact V|]. destruct x; try contradiction; exact Est.
    - subst st. destruct x; try contradiction; reflexivity. }
  assert (none : match x with CKeygen _ _ _ | CInstance _ => True | _ => False end -> field_first seen xs ->
    exists n F, tame M K (pbind (call_prog impl x) (fun r => pbind (thread impl xs) (fun rs => Done (r :: rs)))) (answer_of H st x :: answers H (step H st x) xs) n F).
  { intros E Hf'. replace (call_prog impl x) with (Done (answer_of H None x)) by (specialize (Himpl x); destruct x; try contradiction; symmetry; exact Himpl).
    apply (next seen K 0 (Done (answer_of H None x)) (answer_of H None x) K (tame_done _ _ _) Hf').
    - intros Es. destruct (Hs Es) as [V Est]. split; [exact V|]. destruct x; try contradiction; exact Est.
    - destruct x; try contradiction; reflexivity. }
  cbn [field_first] in Hf. destruct x; cbn [uses] in Hx; first [apply none; [exact Logic.I|exact Hf]|apply init; [exact Hx|exact Hf]|destruct Hf as [Es Hf]; subst seen; apply plain; [exact Logic.I|reflexivity|exact Hf]].
Qed.

(** Every thread that was given enough steps has the answers of its calls made alone in a fresh process. *)
Lemma same_field threads : (forall xs, In xs threads -> Forall (uses lam) xs /\ field_first false xs) ->
  exists ns, length ns = length threads /\ forall sched m t xs, nth_error threads t = Some xs ->
    (forall rs, nth_error (fst (exec sched (map (thread impl) threads, m))) t = Some (Done rs) -> rs = answers H None xs) /\
    (nth t ns 0 <= count_occ Nat.eq_dec sched t -> nth_error (fst (exec sched (map (thread impl) threads, m))) t = Some (Done (answers H None xs))).
Proof.
  intros Ht.
  assert (Hns : exists ns, length ns = length threads /\ forall t xs n, nth_error threads t = Some xs -> nth_error ns t = Some n -> exists F, tame M (fun _ => False) (thread impl xs) (answers H None xs) n F).
  { clear - Ht Himpl Hc. induction threads as [|xs ths IH].
    - exists []. split; [reflexivity|]. intros [|t] xs n E; discriminate.
    - destruct IH as (ns & L & E); [intros ys Hy; apply Ht; right; exact Hy|]. destruct (Ht xs (or_introl eq_refl)) as [Hu Hf].
      destruct (thread_tame xs false None (fun _ => False) Hf Hu) as (n & F & T); [discriminate|].
      exists (n :: ns). split; [cbn; rewrite L; reflexivity|]. intros [|t] ys n' E1 E2; cbn in E1, E2; [|eapply E; eassumption].
      injection E1 as <-. injection E2 as <-. exists F. exact T. }
  destruct Hns as (ns & L & Hns). exists ns. split; [exact L|]. intros sched m t xs Et.
  assert (T0 : all_tame M (map (answers H None) threads) (map (thread impl) threads) ns m).
  { split; [rewrite !map_length; reflexivity|]. split; [rewrite map_length; exact L|]. intros u p Eu. rewrite nth_error_map in Eu.
    destruct (nth_error threads u) as [ys|] eqn:Ey; [|discriminate]. injection Eu as <-. destruct (nth_error ns u) as [n|] eqn:En.
    - destruct (Hns u ys n Ey En) as [F T]. exists (fun _ => False), (answers H None ys), n, F. rewrite nth_error_map, Ey. split; [reflexivity|]. split; [reflexivity|]. split; [exact T|]. intros l [].
    - apply nth_error_None in En. assert (u < length threads) by (apply nth_error_Some; congruence). lia. }
  destruct (exec_tame M (map (answers H None) threads) sched _ _ _ T0) as (ns' & T1 & E1).
  assert (Lt : t < length threads) by (apply nth_error_Some; congruence).
  assert (En : nth_error ns t = Some (nth t ns 0)) by (apply nth_error_nth'; lia).
  destruct (tame_final M _ _ _ _ t (answers H None xs) _ T1 ltac:(rewrite nth_error_map, Et; reflexivity) (E1 _ _ En)) as [G1 G2]. split; [exact G1|]. intros Le. apply G2. lia.
Qed.
End Threads.
