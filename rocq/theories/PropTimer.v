(** C86: the timer of the benchmark programs.  Specification: TraceSpec. *)
From Coq Require Import Arith NArith ZArith List Bool Lia.
From Verif Require Import Prelude RandModel TraceSpec TraceFacts TimerModel.
Import ListNotations.

(** The timer can always be set up: a benchmark never stops because of it. *)
Theorem C86_available : forall m fd0, fst (fst (timing_init m fd0)) = true.
Proof. intros m fd0. unfold timing_init. destruct (m_armv8 m) as [[|]|]; try reflexivity; destruct (m_perf m) as [r|]; try reflexivity; cbv zeta; destruct (perf_event_open r =? -1)%Z; reflexivity. Qed.
Print Assumptions C86_available.
Lemma reads_calls m t : t_source t = Perf -> forall n i, snd (reads m i n t) = repeat (SRead (t_fd t) 0 8) n.
Proof. intros E. induction n as [|n IH]; intros i; [reflexivity|]. cbn [reads]. specialize (IH (S i)). destruct (timing_read m i t) as [v c] eqn:R. destruct (reads m (S i) n t) as [vs cs]. unfold timing_read in R. rewrite E in R. injection R as _ <-. cbn [snd app repeat] in *. rewrite IH. reflexivity. Qed.
Lemma reads_silent m t : t_source t <> Perf -> forall n i, snd (reads m i n t) = [].
Proof. intros E. induction n as [|n IH]; intros i; [reflexivity|]. cbn [reads]. specialize (IH (S i)). destruct (timing_read m i t) as [v c] eqn:R. destruct (reads m (S i) n t) as [vs cs]. unfold timing_read in R. destruct (t_source t); [|contradiction|]; injection R as _ <-; exact IH. Qed.
Lemma closes_silent t : t_source t <> Perf -> forall k, closes k t = [].
Proof. intros E. induction k as [|k IH]; [reflexivity|]. cbn [closes]. unfold timing_close. destruct (t_source t); [|contradiction|]; exact IH. Qed.
Lemma closes_again k : closes k (mkTimer Perf (-1)) = [].
Proof. induction k as [|k IH]; [reflexivity|]. exact IH. Qed.
Lemma reads_well fd n : well [fd] (repeat (SRead fd 0 8) n) /\ fold_left after (repeat (SRead fd 0 8) n) [fd] = [fd].
Proof. induction n as [|n [A B]]; [split; [split; [cbn; lia|exact I]|reflexivity]|]. cbn [repeat well fold_left after]. split; [|exact B]. split; [cbn; lia|]. split; [|exact A]. intros fd' X. injection X as <-. left. reflexivity. Qed.
(** If the kernel numbers descriptors with ints: however often the timer is read, and however often it is then closed, only an open
    descriptor is read or closed, and none is left open. *)
Theorem C86_descriptor : forall m fd0 n k, (forall r, m_perf m = Some r -> -1 <= r <= INT_MAX)%Z -> 1 <= k ->
  used_well (snd (timed m fd0 n k)) /\ open_after (snd (timed m fd0 n k)) = [].
Proof.
  intros m fd0 n k HM Hk. assert (X : well [] (snd (timed m fd0 n k)) /\ open_after (snd (timed m fd0 n k)) = []); [|destruct X as [X Y]; split; [apply well_used; exact X|exact Y]].
  assert (S : forall t c, t_source t <> Perf -> well [] c -> open_after c = [] -> well [] (c ++ snd (reads m 0 n t) ++ closes k t) /\ open_after (c ++ snd (reads m 0 n t) ++ closes k t) = []).
  { intros t c Ht W O. rewrite reads_silent, closes_silent by exact Ht. rewrite !app_nil_r. split; assumption. }
  assert (E : snd (timed m fd0 n k) = let '(_, t, c) := timing_init m fd0 in c ++ snd (reads m 0 n t) ++ closes k t) by (unfold timed; destruct (timing_init m fd0) as [[ok t] c]; destruct (reads m 0 n t) as [vs cr]; reflexivity).
  rewrite E. clear E. assert (N0 : well [] []) by (split; [cbn; lia|exact I]).
  assert (P : forall r, m_perf m = Some r -> let '(_, t, c) := (if (perf_event_open r =? -1)%Z then (true, mkTimer Clock fd0, [SOpen (if (r =? -1)%Z then OError false else OFd r)]) else (true, mkTimer Perf (perf_event_open r), [SOpen (if (r =? -1)%Z then OError false else OFd r)])) in
    well [] (c ++ snd (reads m 0 n t) ++ closes k t) /\ open_after (c ++ snd (reads m 0 n t) ++ closes k t) = []).
  { intros r Er. specialize (HM r Er). unfold perf_event_open. destruct (Z.ltb_spec INT_MAX r) as [L|L]; [lia|]. destruct (Z.eqb_spec r (-1)) as [->|R].
    - apply S; [discriminate| |reflexivity]. split; [cbn; lia|]. split; [discriminate|]. exact N0.
    - set (t := mkTimer Perf r). rewrite (reads_calls m t eq_refl). destruct k as [|k]; [lia|]. cbn [closes]. unfold timing_close. cbn [t t_source t_fd]. destruct (Z.eqb_spec r (-1)); [contradiction|]. rewrite closes_again, app_nil_r.
      destruct (reads_well r n) as [A B]. assert (RM : remove Z.eq_dec r [r] = []) by (cbn [remove]; destruct (Z.eq_dec r r); [reflexivity|congruence]). cbn [app]. split.
      + split; [cbn; lia|]. split; [discriminate|]. cbn [after]. apply well_app; [exact A|]. rewrite B. split; [cbn; lia|]. split; [intros fd' X; injection X as <-; left; reflexivity|]. cbn [after]. rewrite RM. exact N0.
      + unfold open_after. cbn [fold_left after]. rewrite fold_left_app, B. cbn [fold_left after]. exact RM. }
  unfold timing_init. destruct (m_armv8 m) as [[|]|]; [apply S; [discriminate|exact N0|reflexivity]| |]; (destruct (m_perf m) as [r|]; [pose proof (P r eq_refl) as Pr; cbv zeta; destruct (perf_event_open r =? -1)%Z; exact Pr|apply S; [discriminate|exact N0|reflexivity]]).
Qed.
Print Assumptions C86_descriptor.
(** Without that assumption a descriptor is leaked: perf_event_open gives up numbers above INT_MAX without closing them. *)
Theorem C86_large_refuted : forall m fd0 n k r, m_armv8 m = None -> m_perf m = Some r -> (INT_MAX < r)%Z -> open_after (snd (timed m fd0 n k)) = [r].
Proof.
  intros m fd0 n k r HA HP Hr. unfold timed, timing_init. rewrite HA, HP. unfold perf_event_open. destruct (Z.ltb_spec INT_MAX r) as [_|L]; [|lia]. cbv zeta. change (-1 =? -1)%Z with true. cbv iota beta.
  pose proof (reads_silent m (mkTimer Clock fd0) ltac:(discriminate) n 0) as RS. destruct (reads m 0 n (mkTimer Clock fd0)) as [vs cr]. cbn [snd] in *. subst cr. rewrite closes_silent by discriminate. destruct (Z.eqb_spec r (-1)) as [->|_]; [unfold INT_MAX in Hr; lia|]. reflexivity.
Qed.
Print Assumptions C86_large_refuted.

(** Linux, descriptor 3, the second reading fails *)
Example C86_case : timed (mkMachine None (Some 3%Z) (fun _ => 0%N) (fun i => nth i [Some 10; None; Some 30]%N None) (fun _ => 0%Z) 1000000) 77 3 2 =
  (true, [10; 18446744073709551615; 30]%N, [SOpen (OFd 3); SRead 3 0 8; SRead 3 0 8; SRead 3 0 8; SClose 3]).
Proof. reflexivity. Qed.
(** no performance counters: clock(), in microseconds where CLOCKS_PER_SEC is 1000 *)
Example C86_clock_case : timed (mkMachine (Some false) (Some (-1)%Z) (fun _ => 0%N) (fun _ => None) (fun i => Z.of_nat i + 5)%Z 1000) 77 2 1 = (true, [5000; 6000]%N, [SOpen (OError false)]).
Proof. reflexivity. Qed.
