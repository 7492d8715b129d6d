(** Threads that only read the static members (C56): no data race, and every schedule gives the answers of one thread alone. *)
From Coq Require Import Arith NArith ZArith List Bool Lia.
From Verif Require Import Prelude FieldModel Instances HashModel TreeModel BanquetModel History ThreadModel ThreadFacts.
Import ListNotations.

Lemma read_only_bind {A B} (p : prog A) (f : A -> prog B) : read_only p -> (forall a, read_only (f a)) -> read_only (pbind p f).
Proof. induction p as [a|l k IH|l v p IH]; cbn [read_only pbind]; intros R F; [apply F|split; [apply R|]; intros v; apply IH; [apply R|exact F]|exact R]. Qed.
Lemma run_bind {A B} (p : prog A) (f : A -> prog B) m : read_only p -> run (pbind p f) m = run (f (run p m)) m.
Proof. induction p as [a|l k IH|l v p IH]; cbn [read_only pbind run]; intros R; [reflexivity|apply IH, R|destruct R]. Qed.

(** calls that do not start with init_extension_field *)
Definition reads_only (x : call) : Prop := match x with CSign _ _ _ _ _ | CVerify _ _ _ _ _ _ => False | _ => True end.
Lemma call_reads H impl x : implements H impl -> reads_only x -> read_only (call_prog impl x) /\ forall st, reachable st -> run (call_prog impl x) (mem_of st) = answer_of H st x.
Proof.
  intros HI HX. pose proof (HI x) as S. destruct x; cbn [reads_only] in HX; try destruct HX; cbn [call_prog].
  - rewrite S. split; [exact Logic.I|]. intros st _. reflexivity.
  - exact S.
  - exact S.
  - rewrite S. split; [exact Logic.I|]. intros st _. reflexivity.
Qed.
Lemma thread_reads H impl xs : implements H impl -> Forall reads_only xs -> read_only (thread impl xs) /\ forall st, reachable st -> run (thread impl xs) (mem_of st) = answers H st xs.
Proof.
  intros HI. induction 1 as [|x xs HX _ [IH1 IH2]]; [split; [exact Logic.I|reflexivity]|]. destruct (call_reads H impl x HI HX) as [R1 R2]. cbn [thread answers].
  assert (B : forall r, read_only (pbind (thread impl xs) (fun rs => Done (r :: rs)))) by (intros r; apply read_only_bind; [exact IH1|intros; exact Logic.I]).
  split; [apply read_only_bind; [exact R1|exact B]|]. intros st HS. rewrite run_bind by exact R1. rewrite run_bind by exact IH1. cbn [run]. rewrite R2, IH2 by exact HS.
  replace (step H st x) with st; [reflexivity|]. destruct x; cbn [reads_only] in HX; try destruct HX; reflexivity.
Qed.

(** n steps of a program when the memory stays m *)
Fixpoint adv {A} (n : nat) (p : prog A) (m : mem) : prog A := match n, p with S n', Rd l k => adv n' (k (m l)) m | _, _ => p end.
Lemma adv_done {A} n (a : A) m : adv n (Done a) m = Done a.
Proof. destruct n; reflexivity. Qed.
Lemma adv_reads {A} (m : mem) : forall n (p : prog A), read_only p -> read_only (adv n p m).
Proof. induction n as [|n IH]; intros p R; [exact R|]. destruct p as [a|l k|l v p]; cbn [adv]; [exact R|apply IH, R|exact R]. Qed.
Lemma adv_run {A} (m : mem) : forall n (p : prog A), run (adv n p m) m = run p m.
Proof. induction n as [|n IH]; intros p; [reflexivity|]. destruct p as [a|l k|l v p]; cbn [adv]; [reflexivity|rewrite IH; reflexivity|reflexivity]. Qed.
Lemma adv_ends {A} (m : mem) (p : prog A) : read_only p -> exists n, forall k, n <= k -> adv k p m = Done (run p m).
Proof.
  induction p as [a|l k IH|l v p IH]; cbn [read_only run]; intros R.
  - exists 0. intros j _. apply adv_done.
  - destruct (IH (m l) (proj2 R (m l))) as [n HN]. exists (S n). intros [|j] L; [lia|]. cbn [adv]. apply HN. lia.
  - destruct R.
Qed.
Lemma adv_step {A} n (p : prog A) m : read_only p -> adv (S n) p m = adv n (match p with Rd l k => k (m l) | q => q end) m.
Proof. destruct p as [a|l k|l v p]; cbn [adv]; intros R; [destruct n; reflexivity|reflexivity|destruct R]. Qed.
Lemma exec_reads {A} (m : mem) : forall sched (ps : list (prog A)), Forall read_only ps ->
  snd (exec sched (ps, m)) = m /\ length (fst (exec sched (ps, m))) = length ps /\
  forall t p, nth_error ps t = Some p -> nth_error (fst (exec sched (ps, m))) t = Some (adv (count_occ Nat.eq_dec sched t) p m).
Proof.
  induction sched as [|u sched IH]; intros ps F; [repeat split; intros t p E; exact E|]. unfold exec. cbn [fold_left]. fold (exec sched (tstep u (ps, m))).
  assert (G : exists ps', tstep u (ps, m) = (ps', m) /\ Forall read_only ps' /\ length ps' = length ps /\
    forall t p, nth_error ps t = Some p -> nth_error ps' t = Some (if Nat.eq_dec u t then match p with Rd l k => k (m l) | q => q end else p)).
  { unfold tstep. cbn [fst snd]. destruct (nth_error ps u) as [[a|l k|l v q]|] eqn:EU.
    - exists ps. repeat split; auto. intros t p E. destruct (Nat.eq_dec u t) as [<-|]; [|exact E]. rewrite E in EU. injection EU as ->. exact E.
    - pose proof (proj1 (Forall_forall _ _) F _ (nth_error_In _ _ EU)) as R. exists (upd ps u (k (m l))). split; [reflexivity|]. assert (L : u < length ps) by (apply nth_error_Some; congruence).
      split; [|split; [apply upd_len|]].
      + apply Forall_forall. intros q Hq. apply In_nth_error in Hq. destruct Hq as [t Ht]. destruct (Nat.eq_dec u t) as [<-|N].
        * rewrite nth_error_upd_same in Ht by exact L. injection Ht as <-. apply R.
        * rewrite nth_error_upd_other in Ht by exact N. exact (proj1 (Forall_forall _ _) F _ (nth_error_In _ _ Ht)).
      + intros t p E. destruct (Nat.eq_dec u t) as [<-|N]; [|rewrite nth_error_upd_other by exact N; exact E]. rewrite E in EU. injection EU as ->. apply nth_error_upd_same, L.
    - destruct (proj1 (Forall_forall _ _) F _ (nth_error_In _ _ EU)).
    - exists ps. repeat split; auto. intros t p E. destruct (Nat.eq_dec u t) as [<-|]; [congruence|exact E]. }
  destruct G as (ps' & -> & F' & L' & N'). destruct (IH ps' F') as (A1 & A2 & A3). split; [exact A1|]. split; [rewrite A2; exact L'|].
  intros t p E. rewrite (A3 t _ (N' t p E)). cbn [count_occ]. destruct (Nat.eq_dec u t) as [<-|N]; [|reflexivity]. f_equal. symmetry. apply adv_step. exact (proj1 (Forall_forall _ _) F _ (nth_error_In _ _ E)).
Qed.
Lemma reads_no_race {A} (ps : list (prog A)) : Forall read_only ps -> ~ race ps.
Proof.
  intros F (t & u & p & q & l & w & w' & _ & Ep & Eq & Np & Nq & W).
  pose proof (proj1 (Forall_forall _ _) F _ (nth_error_In _ _ Ep)) as Rp. pose proof (proj1 (Forall_forall _ _) F _ (nth_error_In _ _ Eq)) as Rq.
  destruct p as [a|l1 k|l1 v p]; [discriminate Np| |destruct Rp]. destruct q as [a|l2 k2|l2 v q]; [discriminate Nq| |destruct Rq]. injection Np as _ <-. injection Nq as _ <-. discriminate W.
Qed.
Lemma readers H impl : implements H impl -> forall st threads, reachable st -> Forall (Forall reads_only) threads ->
  (forall sched, ~ race (fst (exec sched (map (thread impl) threads, mem_of st)))) /\
  exists ns, length ns = length threads /\ forall sched t xs, nth_error threads t = Some xs ->
    (forall rs, nth_error (fst (exec sched (map (thread impl) threads, mem_of st))) t = Some (Done rs) -> rs = answers H st xs) /\
    (nth t ns 0 <= count_occ Nat.eq_dec sched t -> nth_error (fst (exec sched (map (thread impl) threads, mem_of st))) t = Some (Done (answers H st xs))).
Proof.
  intros HI st threads HS HT.
  assert (F : Forall read_only (map (thread impl) threads)) by (apply Forall_map; eapply Forall_impl; [|exact HT]; intros xs HX; apply (thread_reads H impl xs HI HX)).
  split.
  - intros sched. apply reads_no_race. destruct (exec_reads (mem_of st) sched _ F) as (_ & L & A). apply Forall_forall. intros q Hq. apply In_nth_error in Hq. destruct Hq as [t Ht].
    destruct (nth_error (map (thread impl) threads) t) as [p|] eqn:Ep.
    + rewrite (A t p Ep) in Ht. injection Ht as <-. apply adv_reads. exact (proj1 (Forall_forall _ _) F _ (nth_error_In _ _ Ep)).
    + apply nth_error_None in Ep. assert (t < length (fst (exec sched (map (thread impl) threads, mem_of st)))) by (apply nth_error_Some; congruence). lia.
  - assert (NS : exists ns, length ns = length threads /\ forall t xs, nth_error threads t = Some xs -> forall k, nth t ns 0 <= k -> adv k (thread impl xs) (mem_of st) = Done (answers H st xs)).
    { clear F. induction HT as [|xs threads HX _ (ns & L & IH)]; [exists []; split; [reflexivity|]; intros [|t] xs E; discriminate E|].
      destruct (thread_reads H impl xs HI HX) as [R1 R2]. destruct (adv_ends (mem_of st) _ R1) as [n HN]. exists (n :: ns). split; [cbn; congruence|]. intros [|t] ys E k HK; [|exact (IH t ys E k HK)].
      injection E as <-. rewrite HN by exact HK. rewrite R2 by exact HS. reflexivity. }
    destruct NS as (ns & L & NS). exists ns. split; [exact L|]. intros sched t xs E.
    assert (Ep : nth_error (map (thread impl) threads) t = Some (thread impl xs)) by (rewrite nth_error_map, E; reflexivity).
    destruct (exec_reads (mem_of st) sched _ F) as (_ & _ & A). rewrite (A t _ Ep). split.
    + intros rs X. injection X as X. destruct (thread_reads H impl xs HI (proj1 (Forall_forall _ _) HT _ (nth_error_In _ _ E))) as [_ R2]. rewrite <- (R2 st HS), <- (adv_run (mem_of st) (count_occ Nat.eq_dec sched t)), X. reflexivity.
    + intros HK. rewrite (NS t xs E _ HK). reflexivity.
Qed.
