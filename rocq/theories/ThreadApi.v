(** The theorems of PropThreads in the form they are stated there *)
From Coq Require Import Arith NArith ZArith List Bool Lia.
From Verif Require Import Prelude FieldModel FieldExtra FieldApi Instances HashModel TreeModel AesShares BanquetModel BanquetVerify Serialize Sponge4Facts History ThreadModel ThreadFacts FreeSpec.
Import ListNotations.

(** ** A thread that is not interrupted *)
Fixpoint end_mem {A} (p : prog A) (m : mem) : mem :=
  match p with Done _ => m | Rd l k => end_mem (k (m l)) m | Wr l v q => end_mem q (store m l v) end.
Lemma run_bind {A B} (p : prog A) (f : A -> prog B) : forall m, run (pbind p f) m = run (f (run p m)) (end_mem p m).
Proof. induction p as [a|l k IH|l v p IH]; intros m; cbn [pbind run end_mem]; [reflexivity|apply IH|apply IH]. Qed.
Lemma exec_app {A} a b (s : list (prog A) * mem) : exec (a ++ b) s = exec b (exec a s).
Proof. apply fold_left_app. Qed.
Lemma exec_alone {A} (p : prog A) : forall m, exists n, exec (repeat 0 n) ([p], m) = ([Done (run p m)], end_mem p m).
Proof.
  induction p as [a|l k IH|l v p IH]; intros m.
  - exists 0. reflexivity.
  - destruct (IH (m l) m) as [n E]. exists (S n). exact E.
  - destruct (IH (store m l v)) as [n E]. exists (S n). exact E.
Qed.
Lemma read_only_end {A} (p : prog A) m : read_only p -> end_mem p m = m.
Proof. induction p as [a|l k IH|l v p IH]; cbn [read_only end_mem]; intros R; [reflexivity|apply IH, R|destruct R]. Qed.
Lemma goes_run M {A} K (p p' : prog A) n F : goes M K p p' n F -> forall m, knows M K m ->
  exists m', run p m = run p' m' /\ end_mem p m = end_mem p' m' /\ knows M F m' /\ forall l, m' l = m l \/ m' l = M l.
Proof.
  induction 1 as [K p|K l k a n F Kl _ IH|K l v p a n F Ev _ IH]; intros m Kn.
  - exists m. split; [reflexivity|]. split; [reflexivity|]. split; [exact Kn|]. intros l. left. reflexivity.
  - cbn [run end_mem]. rewrite (Kn l Kl). apply IH, Kn.
  - cbn [run end_mem]. destruct (IH (store m l v)) as (m' & E1 & E2 & E3 & E4).
    { intros l' [->|Kl]; [rewrite store_same; exact Ev|]. unfold store. destruct (loc_eqb l' l) eqn:E; [apply loc_eqb_eq in E; subst; reflexivity|apply Kn, Kl]. }
    exists m'. split; [exact E1|]. split; [exact E2|]. split; [exact E3|]. intros l'. destruct (E4 l') as [E|E]; [|right; exact E]. rewrite E.
    unfold store. destruct (loc_eqb l' l) eqn:El; [apply loc_eqb_eq in El; subst; right; reflexivity|left; reflexivity].
Qed.
Lemma lut_256 lam c : init_extension_field lam = Ok c -> length (fc_lut c) = 256.
Proof. intros Hc. do 7 (destruct lam as [|lam]; [try discriminate Hc; injection Hc as <-; vm_compute; reflexivity|]). discriminate Hc. Qed.
Lemma mem_beyond st i : reachable st -> 256 <= i -> mem_of st (Llut i) = 0%N.
Proof. destruct st as [c|]; [|reflexivity]. intros [lam Hc] Li. cbn [mem_of]. apply nth_overflow. rewrite (lut_256 _ _ Hc). exact Li. Qed.

Section Alone.
Variables (H : oracle) (impl : call -> prog (res answer)).
Hypothesis Himpl : implements H impl.
Lemma step_reachable st x : reachable st -> reachable (step H st x).
Proof.
  intros R. destruct x as [ | fuel garb J kp msg | fuel garb J pk sig msg | | |]; cbn [step]; try exact R; unfold sign, verify, with_field, st_init; destruct (init_extension_field (lambda J)) eqn:E; cbn [fst]; try (destruct st; exact R);
  (exists (lambda J); exact E).
Qed.
Lemma init_throws {A} lam e (rest : prog (res A)) : init_extension_field lam = Throw e -> init_prog lam rest = Done (Throw e).
Proof. do 7 (destruct lam as [|lam]; [intros E; (injection E as <-; reflexivity) || discriminate|]). intros E. injection E as <-. reflexivity. Qed.
Lemma init_ok_or lam : (exists c, init_extension_field lam = Ok c) \/ init_extension_field lam = Throw ELambda.
Proof. do 7 (destruct lam as [|lam]; [(left; eexists; reflexivity) || (right; reflexivity)|]). right. reflexivity. Qed.
Lemma call_alone st m x : reachable st -> (forall l, m l = mem_of st l) ->
  run (call_prog impl x) m = answer_of H st x /\ forall l, end_mem (call_prog impl x) m l = mem_of (step H st x) l.
Proof.
  intros R Em.
  assert (ro : forall st' m', reachable st' -> (forall l, m' l = mem_of st' l) -> match x with CKeygen _ _ _ | CInstance _ => False | CSign _ _ _ _ _ | CVerify _ _ _ _ _ _ => exists c, st' = Some c | _ => True end ->
    run (impl x) m' = rest_of H st' x /\ forall l, end_mem (impl x) m' l = mem_of st' l).
  { intros st' m' R' Em' Hx. assert (G : read_only (impl x) /\ run (impl x) (mem_of st') = rest_of H st' x).
    { specialize (Himpl x). destruct x; try contradiction; destruct Himpl as [A1 A2]; (split; [exact A1|]); first [apply A2, R'|destruct Hx as [c Ex]; subst st'; apply A2, R']. }
    destruct G as [G1 G2]. rewrite (read_only_end _ _ G1). split; [|exact Em']. rewrite <- G2. apply run_ext, Em'. }
  assert (init : forall J, match x with CSign _ _ J' _ _ | CVerify _ _ J' _ _ _ => J' = J | _ => False end ->
    run (call_prog impl x) m = answer_of H st x /\ forall l, end_mem (call_prog impl x) m l = mem_of (step H st x) l).
  { intros J HJ. replace (call_prog impl x) with (init_prog (lambda J) (impl x)) by (destruct x; try contradiction; subst; reflexivity).
    destruct (init_ok_or (lambda J)) as [[c Hc]|Ht].
    - destruct (call_init H impl (lambda J) c Hc st x) as (E1 & E2 & _); [destruct x; try contradiction; subst; reflexivity|]. rewrite E1, E2.
      destruct (init_goes (lambda J) c (impl x) (fun _ => False) Hc) as (F & V & G).
      destruct (goes_run _ _ _ _ _ _ G m) as (m' & D1 & D2 & D3 & D4); [intros l []|]. rewrite D1, D2. apply ro.
      + exists (lambda J). exact Hc.
      + intros l. destruct l as [| | |i]; try (apply D3, V; exact Logic.I). destruct (Nat.lt_ge_cases i 256) as [Li|Li]; [apply D3, V; exact Li|].
        rewrite (mem_beyond (Some c) i (ex_intro _ (lambda J) Hc) Li). destruct (D4 (Llut i)) as [E|E]; rewrite E; [rewrite Em; apply mem_beyond; assumption|].
        apply mem_beyond; [exists (lambda J); exact Hc|exact Li].
      + destruct x; try contradiction; eexists; reflexivity.
    - rewrite (init_throws _ _ _ Ht). cbn [run end_mem].
      assert (G : answer_of H st x = Throw ELambda /\ step H st x = st).
      { destruct x; try contradiction; subst; cbn [answer_of step]; unfold sign, verify, with_field, st_init; rewrite Ht; destruct st; auto. }
      destruct G as [-> ->]. split; [reflexivity|exact Em]. }
  pose proof (Himpl x) as Hi. destruct x as [? ? ?| ? ? J ? ? | ? ? J ? ? ? | ? ? | ? ? ? ? |?];
    first [apply (init J); reflexivity | (cbn [call_prog step answer_of]; rewrite Hi; split; [reflexivity|exact Em]) | (apply (ro st m R Em Logic.I))].
Qed.
Lemma thread_alone : forall xs st m, reachable st -> (forall l, m l = mem_of st l) -> run (thread impl xs) m = answers H st xs.
Proof.
  induction xs as [|x xs IH]; intros st m R Em; [reflexivity|]. cbn [thread answers]. destruct (call_alone st m x R Em) as [E1 E2].
  rewrite run_bind, E1, run_bind. cbn [run]. f_equal. apply IH; [apply step_reachable, R|exact E2].
Qed.
Lemma alone xs st : reachable st -> exists n m', exec (repeat 0 n) ([thread impl xs], mem_of st) = ([Done (answers H st xs)], m').
Proof.
  intros R. destruct (exec_alone (thread impl xs) (mem_of st)) as [n E]. exists n, (end_mem (thread impl xs) (mem_of st)). rewrite E, (thread_alone xs st _ R) by reflexivity. reflexivity.
Qed.
End Alone.

(** ** Two threads with different fields *)
Lemma exec_solo M {A} K (p p' : prog A) n F : goes M K p p' n F -> forall ts m t, nth_error ts t = Some p -> knows M K m ->
  exists ts' m', exec (repeat t n) (ts, m) = (ts', m') /\ nth_error ts' t = Some p' /\ (forall u, u <> t -> nth_error ts' u = nth_error ts u) /\ knows M F m'.
Proof.
  induction 1 as [K p|K l k a n F Kl _ IH|K l v p a n F Ev _ IH]; intros ts m t Et Kn.
  - exists ts, m. split; [reflexivity|]. split; [exact Et|]. split; [reflexivity|exact Kn].
  - assert (Lt : t < length ts) by (apply nth_error_Some; congruence).
    cbn [repeat exec fold_left]. unfold tstep at 2. cbn [fst snd]. rewrite Et, (Kn l Kl).
    destruct (IH (upd ts t (k (M l))) m t (nth_error_upd_same _ _ _ Lt) Kn) as (ts' & m' & E1 & E2 & E3 & E4).
    exists ts', m'. split; [exact E1|]. split; [exact E2|]. split; [|exact E4]. intros u Nu. rewrite (E3 u Nu). apply nth_error_upd_other. congruence.
  - assert (Lt : t < length ts) by (apply nth_error_Some; congruence).
    cbn [repeat exec fold_left]. unfold tstep at 2. cbn [fst snd]. rewrite Et.
    destruct (IH (upd ts t p) (store m l v) t (nth_error_upd_same _ _ _ Lt)) as (ts' & m' & E1 & E2 & E3 & E4).
    { intros l' [->|Kl]; [rewrite store_same; exact Ev|]. unfold store. destruct (loc_eqb l' l) eqn:E; [apply loc_eqb_eq in E; subst; reflexivity|apply Kn, Kl]. }
    exists ts', m'. split; [exact E1|]. split; [exact E2|]. split; [|exact E4]. intros u Nu. rewrite (E3 u Nu). apply nth_error_upd_other. congruence.
Qed.
Lemma tame_goes M {A} K (p : prog A) a n F : tame M K p a n F -> goes M K p (Done a) n F.
Proof. induction 1; [constructor|apply goes_rd; assumption|apply goes_wr; [reflexivity|assumption]]. Qed.

(** verification over a field of another size *)
Lemma sizes_positive I : regular I -> 1 <= num_rounds I /\ 1 <= m1 I /\ 1 <= m2 I.
Proof.
  intros [[HA _ HS _ _] HT _]. split; [exact HT|]. assert (1 <= num_sboxes (i_aes I)) by (destruct HA as [<-|[<-|[<-|[]]]]; cbn; lia).
  destruct (m1 I); [cbn in HS; lia|]. destruct (m2 I); [rewrite Nat.mul_0_r in HS; lia|]. lia.
Qed.
Lemma regular_field I : regular I -> exists c, init_extension_field (lambda I) = Ok c.
Proof. intros HB. destruct (pr_lambda _ (rg_proper _ HB)) as [<-|[<-|[<-|[<-|[]]]]]; eexists; reflexivity. Qed.
Lemma verify_wrong_field H I J c fuel garb pk sig msg : regular I -> regular J -> lambda I <> lambda J -> init_extension_field (lambda J) = Ok c ->
  str (2 * pt_size I) pk -> sig_shape I sig -> verify_body H I c fuel garb pk sig msg = UB OutOfBounds.
Proof.
  intros HI HJ NL Hc [Lpk _] SS. destruct (sizes_positive I HI) as (P1 & P2 & P3). pose proof (api_size _ _ Hc) as Bs.
  unfold verify_body, verify_contexts. rewrite !read_ok by lia. cbn [bind].
  assert (Eb : forall x, elem_bytes I c x = if lambda I <=? lambda J then Ok (slice (to_bytes (lambda J) x) 0 (lambda I)) else UB OutOfBounds).
  { intros x. unfold elem_bytes, read. rewrite Bs. unfold to_bytes. rewrite le_bytes_length. reflexivity. }
  assert (P2u : lambda J < lambda I -> phase_2_commitment H I c (s_salt sig) (s_h1 sig) (map p_P_delta (s_proofs sig)) = UB OutOfBounds).
  { intros L. unfold phase_2_commitment, phase_2_ctx. rewrite (mapM_ub _ _ OutOfBounds); [reflexivity|destruct (num_rounds I); [lia|discriminate]|].
    intros e He. apply in_seq in He. rewrite (get_ok _ _ []) by (rewrite map_length, (ss_len _ _ SS); lia). cbn [bind].
    rewrite (mapM_ub _ _ OutOfBounds); [reflexivity|destruct (m2 I); [lia|discriminate]|]. intros k Hk. apply in_seq in Hk.
    rewrite (get_ok _ _ 0%N).
    - cbn [bind]. rewrite Eb. destruct (Nat.leb_spec (lambda I) (lambda J)); [lia|reflexivity].
    - change (@nil N) with (p_P_delta (mkProof ([], 0) [] [] [] [] 0%N [] [])). rewrite map_nth.
      assert (PS : proof_shape I (nth e (s_proofs sig) (mkProof ([], 0) [] [] [] [] 0%N [] []))) by (apply (proj1 (Forall_forall _ _) (ss_proofs _ _ SS)), nth_In; rewrite (ss_len _ _ SS); lia).
      rewrite (proj1 (ps_P _ _ PS)). lia. }
  assert (P2o : lambda I < lambda J -> exists h2, phase_2_commitment H I c (s_salt sig) (s_h1 sig) (map p_P_delta (s_proofs sig)) = Ok h2).
  { intros L. unfold phase_2_commitment, phase_2_ctx. eexists. erewrite mapM_ok; [reflexivity|].
    intros e He. apply in_seq in He. rewrite (get_ok _ _ []) by (rewrite map_length, (ss_len _ _ SS); lia). cbn [bind].
    rewrite (mapM_ok _ (fun k => slice (to_bytes (lambda J) (nth k (nth e (map p_P_delta (s_proofs sig)) []) 0%N)) 0 (lambda I))); [reflexivity|]. intros k Hk. apply in_seq in Hk.
    rewrite (get_ok _ _ 0%N).
    - cbn [bind]. rewrite Eb. destruct (Nat.leb_spec (lambda I) (lambda J)); [reflexivity|lia].
    - change (@nil N) with (p_P_delta (mkProof ([], 0) [] [] [] [] 0%N [] [])). rewrite map_nth.
      assert (PS : proof_shape I (nth e (s_proofs sig) (mkProof ([], 0) [] [] [] [] 0%N [] []))) by (apply (proj1 (Forall_forall _ _) (ss_proofs _ _ SS)), nth_In; rewrite (ss_len _ _ SS); lia).
      rewrite (proj1 (ps_P _ _ PS)). lia. }
  destruct (Nat.lt_gt_cases (lambda I) (lambda J)) as [Lg _]. destruct (Lg NL) as [L|L]; [|rewrite (P2u L); reflexivity].
  destruct (P2o L) as [h2 ->]. cbn [bind].
  assert (P1u : phase_1_expand H I c (s_h1 sig) = UB OutOfBounds).
  { unfold phase_1_expand. destruct (num_rounds I); [lia|]. cbn [squeeze_rows]. destruct (m1 I); [lia|]. cbn [squeeze_elems]. unfold hash_squeeze, hash_final, hash_update, hash_init. cbn [h_off h_v h_in].
    unfold elem_at at 1, read at 1. rewrite stream_length, Bs. destruct (Nat.leb_spec (0 + lambda J) (lambda I)); [lia|reflexivity]. }
  rewrite P1u. reflexivity.
Qed.

(** whatever a verification would answer, it accesses memory out of bounds if another thread starts a call for another field
    between its own init_extension_field and the rest *)
Lemma two_fields H impl : implements H impl -> forall I J fuel garb pk sig msg y ys m, regular I -> regular J -> lambda I <> lambda J ->
  str (2 * pt_size I) pk -> sig_shape I sig -> match y with CSign _ _ J' _ _ | CVerify _ _ J' _ _ _ => J' = J | _ => False end ->
  exists sched, nth_error (fst (exec sched ([thread impl [CVerify fuel garb I pk sig msg]; thread impl (y :: ys)], m))) 0 = Some (Done [UB OutOfBounds]).
Proof.
  intros Hi I J fuel garb pk sig msg y ys m HI HJ NL SP SS Hy.
  destruct (regular_field I HI) as [cI HcI]. destruct (regular_field J HJ) as [cJ HcJ].
  set (x := CVerify fuel garb I pk sig msg). set (f := fun r => pbind (thread impl []) (fun rs => Done (r :: rs))).
  destruct (init_goes (lambda I) cI (impl x) (fun _ => False) HcI) as (F1 & _ & G1). apply goes_bind with (f := f) in G1.
  destruct (exec_solo _ _ _ _ _ _ G1 [thread impl [x]; thread impl (y :: ys)] m 0 eq_refl) as (ts1 & m1' & E1 & E2 & E3 & _); [intros l []|].
  assert (Ey : thread impl (y :: ys) = pbind (init_prog (lambda J) (impl y)) (fun r => pbind (thread impl ys) (fun rs => Done (r :: rs)))) by (destruct y; try contradiction; subst; reflexivity).
  destruct (init_goes (lambda J) cJ (impl y) (fun _ => False) HcJ) as (F2 & V2 & G2). apply goes_bind with (f := fun r => pbind (thread impl ys) (fun rs => Done (r :: rs))) in G2.
  destruct (exec_solo _ _ _ _ _ _ G2 ts1 m1' 1) as (ts2 & m2' & D1 & D2 & D3 & D4); [rewrite (E3 1) by discriminate; cbn [nth_error]; rewrite Ey; reflexivity|intros l []|].
  destruct (Hi x) as [RO RV]. destruct (tame_read_only (mem_of (Some cJ)) (impl x) RO) as [n T]. specialize (T F2 V2).
  assert (EU : run (impl x) (mem_of (Some cJ)) = UB OutOfBounds).
  { rewrite (RV cJ (ex_intro _ _ HcJ)). cbn [x rest_of]. rewrite (verify_wrong_field H I J cJ fuel garb pk sig msg HI HJ NL HcJ SP SS). reflexivity. }
  rewrite EU in T.
  apply tame_goes in T. apply goes_bind with (f := f) in T.
  destruct (exec_solo _ _ _ _ _ _ T ts2 m2' 0) as (ts3 & m3 & C1 & C2 & _ & _); [rewrite (D3 0) by discriminate; exact E2|exact D4|].
  exists (repeat 0 init_steps ++ repeat 1 init_steps ++ repeat 0 n). rewrite !exec_app.
  rewrite E1, D1, C1. exact C2.
Qed.

(** Two threads about to sign or verify race, whatever their parameter sets. *)
Lemma always_race impl x y xs ys : match x with CSign _ _ J _ _ | CVerify _ _ J _ _ _ => regular J | _ => False end ->
  match y with CSign _ _ J _ _ | CVerify _ _ J _ _ _ => regular J | _ => False end -> race [thread impl (x :: xs); thread impl (y :: ys)].
Proof.
  assert (W : forall z zs, match z with CSign _ _ J _ _ | CVerify _ _ J _ _ _ => regular J | _ => False end -> next_access (thread impl (z :: zs)) = Some (Lmod, true)).
  { intros z zs Hz. assert (Hl : exists J, regular J /\ call_prog impl z = init_prog (lambda J) (impl z)) by (destruct z; try contradiction; eexists; split; [exact Hz|reflexivity|exact Hz|reflexivity]).
    destruct Hl as (J & HJ & Ez). cbn [thread]. rewrite Ez. destruct (pr_lambda _ (rg_proper _ HJ)) as [<-|[<-|[<-|[<-|[]]]]]; reflexivity. }
  intros Hx Hy. exists 0, 1, (thread impl (x :: xs)), (thread impl (y :: ys)), Lmod, true, true. repeat split; auto.
Qed.

(** A program for every call: it looks once at byte_size. *)
Definition decode (v : N) : fstate := if (v =? 2)%N then Some ctx16 else if (v =? 4)%N then Some ctx32 else if (v =? 5)%N then Some ctx40 else if (v =? 6)%N then Some ctx48 else None.
Definition looks_once (H : oracle) (x : call) : prog (res answer) :=
  match x with CKeygen _ _ _ | CInstance _ => Done (answer_of H None x) | _ => Rd Lsize (fun v => Done (rest_of H (decode v) x)) end.
Lemma looks_once_ok H : implements H (looks_once H).
Proof.
  assert (D : forall st, reachable st -> decode (mem_of st Lsize) = st).
  { intros [c|] R; [|reflexivity]. destruct R as [lam Hc]. do 7 (destruct lam as [|lam]; [try discriminate Hc; injection Hc as <-; reflexivity|]). discriminate Hc. }
  intros x. destruct x; cbn [looks_once]; try reflexivity; (split; [split; [exact Logic.I|intros v; exact Logic.I]|]); intros st R; cbn [run]; rewrite D by exact R; reflexivity.
Qed.
