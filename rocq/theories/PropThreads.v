(** Property theorems about calls made by several threads (C56) *)
From Coq Require Import Arith NArith ZArith List Bool Lia.
From Verif Require Import Prelude FieldModel Instances HashModel AesShares BanquetModel Serialize History ThreadModel ThreadFacts ThreadApi ThreadRead PropSign PropSerial FreeSpec.
Import ListNotations.

(** One thread alone: its calls answer as the calls of a history do, whatever order the code reads the static members in. *)
Theorem C56_one_thread : forall H impl, implements H impl -> forall xs st, reachable st ->
  exists n m', exec (repeat 0 n) ([thread impl xs], mem_of st) = ([Done (answers H st xs)], m').
Proof. exact alone. Qed.
Print Assumptions C56_one_thread.

(** C56 is false of the code: two threads about to sign or verify both write the static modulus, which is a data race, even
    if both use the same parameter set, ... *)
Theorem C56_race_refuted : forall impl x y xs ys, match x with CSign _ _ J _ _ | CVerify _ _ J _ _ _ => regular J | _ => False end ->
  match y with CSign _ _ J _ _ | CVerify _ _ J _ _ _ => regular J | _ => False end -> race [thread impl (x :: xs); thread impl (y :: ys)].
Proof. exact always_race. Qed.
Print Assumptions C56_race_refuted.
(** ... and if the fields differ, then even if accesses are atomic there is a schedule in which verification reads or writes
    out of bounds, whatever it would answer alone. *)
Theorem C56_two_fields_refuted : forall H impl, implements H impl -> forall I J fuel garb pk sig msg y ys m, regular I -> regular J -> lambda I <> lambda J ->
  str (2 * pt_size I) pk -> sig_shape I sig -> match y with CSign _ _ J' _ _ | CVerify _ _ J' _ _ _ => J' = J | _ => False end ->
  exists sched, nth_error (fst (exec sched ([thread impl [CVerify fuel garb I pk sig msg]; thread impl (y :: ys)], m))) 0 = Some (Done [UB OutOfBounds]).
Proof. exact two_fields. Qed.
Print Assumptions C56_two_fields_refuted.

(** What is true: if accesses to the static members are atomic and all threads use parameter sets with the same field, then in
    every schedule, whatever was in memory before, each thread gets the answers it would get alone in a fresh process; a number
    of steps given to a thread suffices for it to finish, whatever the others do.  Missing for C56: the two cases above. *)
Theorem C56_same_field_partial : forall H impl, implements H impl -> forall lam c, init_extension_field lam = Ok c ->
  forall threads, (forall xs, In xs threads -> Forall (uses lam) xs /\ field_first false xs) ->
  exists ns, length ns = length threads /\ forall sched m t xs, nth_error threads t = Some xs ->
    (forall rs, nth_error (fst (exec sched (map (thread impl) threads, m))) t = Some (Done rs) -> rs = answers H None xs) /\
    (nth t ns 0 <= count_occ Nat.eq_dec sched t -> nth_error (fst (exec sched (map (thread impl) threads, m))) t = Some (Done (answers H None xs))).
Proof. exact same_field. Qed.
Print Assumptions C56_same_field_partial.

(** And threads that neither sign nor verify (in a process that may have done so before) do not race in any schedule; they get the
    answers they would get alone. *)
Theorem C56_readers_partial : forall H impl, implements H impl -> forall st threads, reachable st ->
  Forall (Forall (fun x => match x with CSign _ _ _ _ _ | CVerify _ _ _ _ _ _ => False | _ => True end)) threads ->
  (forall sched, ~ race (fst (exec sched (map (thread impl) threads, mem_of st)))) /\
  exists ns, length ns = length threads /\ forall sched t xs, nth_error threads t = Some xs ->
    (forall rs, nth_error (fst (exec sched (map (thread impl) threads, mem_of st))) t = Some (Done rs) -> rs = answers H st xs) /\
    (nth t ns 0 <= count_occ Nat.eq_dec sched t -> nth_error (fst (exec sched (map (thread impl) threads, mem_of st))) t = Some (Done (answers H st xs))).
Proof. exact readers. Qed.
Print Assumptions C56_readers_partial.

(** The hypotheses are met: there are such programs, and threads that sign, verify and serialize. *)
Example C56_case : implements ones (looks_once ones) /\ (exists J, regular J /\ lambda I1 <> lambda J) /\ exists kp sig,
  let xs := [CSign 1 (fun _ => 0%N) I1 kp [1%N]; CSerialize I1 sig] in
  let ys := [CKeygen 1 I1 ex_rng; CVerify 1 (fun _ => 0%N) I1 (snd kp) sig [1%N]] in
  Forall (uses (lambda I1)) xs /\ field_first false xs /\ Forall (uses (lambda I1)) ys /\ field_first false ys /\
  hd_error (answers ones None xs) = Some (Ok (ASignature sig)) /\ answers ones None ys = [Ok (AKeys kp); Ok (AAccepted true)].
Proof.
  split; [apply looks_once_ok|]. split; [exact (let (J, HJ) := C09_case in ex_intro _ J (conj (proj1 HJ) (Nat.lt_neq _ _ (proj2 HJ))))|].
  destruct C01_case as (HB & HR & kp & Hk & Hs). destruct (Hs (fun _ => 0%N) None [1%N]) as [sig Hsig]. exists kp, sig. cbn zeta.
  split; [repeat constructor|]. split; [repeat split|]. split; [repeat constructor|]. split; [repeat split|].
  split; [cbn [answers answer_of hd_error]; rewrite Hsig; reflexivity|].
  cbn [answers answer_of step]. rewrite Hk. cbn [amap].
  rewrite (C01_honest_signatures_verify ones I1 1 ex_rng kp [1%N] 1 (fun _ => 0%N) None (fst (sign ones 1 (fun _ => 0%N) None I1 kp [1%N])) sig HB HR Hk); [reflexivity| |apply le_n].
  rewrite <- Hsig. apply surjective_pairing.
Qed.
Example C56_readers_case : exists c kp sig sig' ser, reachable (Some c) /\ fc_byte_size c = lambda I1 /\
  answers ones (Some c) [CKeygen 1 I1 ex_rng; CSerialize I1 sig] = [Ok (AKeys kp); Ok (ABytes ser)] /\
  answers ones (Some c) [CDeserialize 1 (fun _ => 0%N) I1 ser; CInstance 1] = [Ok (ASignature sig'); Ok (AInstance I1)].
Proof.
  destruct C01_case as (HB & HR & kp & Hk & Hs). destruct (Hs (fun _ => 0%N) None [1%N]) as [sig Hsig].
  destruct (init_extension_field (lambda I1)) as [c| | |] eqn:Ec; [|discriminate Ec..].
  assert (ES : sign ones 1 (fun _ => 0%N) None I1 kp [1%N] = (Some c, Ok sig)).
  { rewrite <- Hsig, (surjective_pairing (sign ones 1 (fun _ => 0%N) None I1 kp [1%N])). f_equal. unfold sign, with_field, st_init. rewrite Ec. reflexivity. }
  destruct (C05_transport ones I1 1 ex_rng kp [1%N] 1 (fun _ => 0%N) None (Some c) sig HB HR Hk ES) as (ser & Eser & D).
  destruct (D 1 (fun _ => 0%N) (le_n 1)) as (sig' & ED & _).
  exists c, kp, sig, sig', ser. split; [exists (lambda I1); exact Ec|]. split; [injection Ec as <-; reflexivity|].
  cbn [answers answer_of step]. rewrite Hk, Eser, ED. split; reflexivity.
Qed.
