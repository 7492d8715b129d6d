(** What PropSponge states, from SpongeApi and Sponge4Facts. *)
From Coq Require Import Arith NArith List Bool Lia.
From Verif Require Import Prelude SpongeModel SpongeSpec HashModel SpongeFacts SpongeApi Sponge4Facts.
Import ListNotations.

Section Perm.
Variable f : bytes -> bytes.
Hypothesis f_len : forall st : bytes, length st = 200 -> length (f st) = 200.

Lemma all_lengths' digest chunks d lens :
  Forall (fun d => small (length d)) chunks -> (N.of_nat (length d) < 2 ^ 61)%N -> Forall small lens ->
  let v := digest =? 32 in let rate := shake_rate v in let pos := length (concat chunks) mod rate in
  exists fuel0, forall fuel, fuel0 <= fuel ->
    (pos = 0 \/ good_length rate pos (N.of_nat (length d)) ->
       hash_run f fuel digest (chunks ++ [d]) lens = Ok (pieces (shake f v (concat chunks ++ d)) 0 lens)) /\
    (pos <> 0 -> (2 ^ 32 <= N.of_nat (length d))%N -> (N.of_nat (length d) mod 2 ^ 32 + N.of_nat pos < N.of_nat rate)%N ->
       hash_run f fuel digest (chunks ++ [d]) lens = OutOfFuel) /\
    (pos <> 0 -> (2 ^ 32 <= N.of_nat (length d) mod 2 ^ 32 + N.of_nat pos)%N ->
       hash_run f fuel digest (chunks ++ [d]) lens = UB OutOfBounds) /\
    (pos = 0 \/ good_length rate pos (N.of_nat (length d)) \/
     (pos <> 0 /\ (2 ^ 32 <= N.of_nat (length d))%N /\ (N.of_nat (length d) mod 2 ^ 32 + N.of_nat pos < N.of_nat rate)%N) \/
     (pos <> 0 /\ (2 ^ 32 <= N.of_nat (length d) mod 2 ^ 32 + N.of_nat pos)%N)).
Proof.
  intros S D SL v rate pos. pose proof (rate_bounds v) as RB.
  assert (P : pos < rate) by (apply Nat.mod_upper_bound; unfold rate; lia).
  pose proof (lengths_cases rate pos (N.of_nat (length d)) P ltac:(unfold rate; lia)) as C.
  pose proof (last_ok f f_len digest chunks d lens S D SL) as L1. fold v rate pos in L1.
  pose proof (last_hangs f f_len digest chunks d lens S D) as L2. fold v rate pos in L2.
  pose proof (last_overruns f f_len digest chunks d lens S D) as L3. fold v rate pos in L3.
  cbv zeta in L1, L2, L3. fold v rate pos in L1, L2, L3.
  assert (X1 : (2 ^ 32 <= N.of_nat (length d))%N -> (N.of_nat (length d) mod 2 ^ 32 + N.of_nat pos < N.of_nat rate)%N -> pos <> 0 ->
    ~ (pos = 0 \/ good_length rate pos (N.of_nat (length d)))) by (unfold good_length; lia).
  assert (X2 : (2 ^ 32 <= N.of_nat (length d) mod 2 ^ 32 + N.of_nat pos)%N -> pos <> 0 ->
    ~ (pos = 0 \/ good_length rate pos (N.of_nat (length d)))).
  { pose proof (N.mod_le (N.of_nat (length d)) (2 ^ 32) ltac:(discriminate)). unfold good_length. lia. }
  assert (X3 : (N.of_nat (length d) mod 2 ^ 32 + N.of_nat pos < N.of_nat rate)%N -> ~ (2 ^ 32 <= N.of_nat (length d) mod 2 ^ 32 + N.of_nat pos)%N).
  { unfold rate. intros. assert (N.of_nat (shake_rate v) <= 168)%N by lia. lia. }
  destruct C as [C|[C|[C|C]]].
  - destruct (L1 (or_introl C)) as [f0 H]. exists f0. intros fuel F. split; [auto|].
    split; [intros; contradiction|]. split; [intros; contradiction|]. auto.
  - destruct (L1 (or_intror C)) as [f0 H]. exists f0. intros fuel F. split; [auto|].
    split; [intros A B E; exfalso; exact (X1 B E A (or_intror C))|]. split; [intros A B; exfalso; exact (X2 B A (or_intror C))|]. auto.
  - destruct C as (C1 & C2 & C3). destruct (L2 C1 C2 C3) as [f0 H]. exists f0. intros fuel F.
    split; [intros G; exfalso; exact (X1 C2 C3 C1 G)|]. split; [auto|]. split; [intros _ B; exfalso; exact (X3 C3 B)|]. auto 8.
  - destruct C as (C1 & C2). destruct (L3 C1 C2) as [f0 H]. exists f0. intros fuel F.
    split; [intros G; exfalso; exact (X2 C2 C1 G)|]. split; [intros _ _ B; exfalso; exact (X3 B C2)|]. auto 8.
Qed.
Lemma one_stream' digest chunks lens : Forall (fun d => small (length d)) chunks -> Forall small lens ->
  exists fuel0, forall fuel, fuel0 <= fuel -> exists outs,
    hash_run f fuel digest chunks lens = Ok outs /\ map (@length N) outs = lens /\
    concat outs = map (shake f (digest =? 32) (concat chunks)) (seq 0 (list_sum lens)).
Proof.
  intros S L. destruct (run_ok f f_len digest chunks lens S L) as [f0 H]. exists f0. intros fuel F. eexists.
  split; [apply H; assumption|]. split; [|apply pieces_concat].
  generalize (shake f (digest =? 32) (concat chunks)). intros g. generalize 0. clear. induction lens as [|n lens IH]; intros off; cbn [pieces map]; auto.
  rewrite IH, map_length, seq_length. reflexivity.
Qed.
Lemma pieces_oracle v m : (forall i, shake f v m i < 256)%N -> forall lens off,
  pieces (shake f v m) off lens = oracle_run (shake f) (mkCtx v m (Some off)) lens.
Proof.
  intros B. induction lens as [|n lens IH]; intros off; cbn [pieces oracle_run hash_squeeze h_v h_in h_off]; auto.
  rewrite IH. f_equal. unfold stream. apply map_ext. intros i. rewrite N.mod_small; auto.
Qed.
Lemma fold_update chunks : forall c, h_off c = None -> fold_left hash_update chunks c = mkCtx (h_v c) (h_in c ++ concat chunks) None.
Proof.
  induction chunks as [|d chunks IH]; intros c Hc; cbn [fold_left concat].
  - rewrite app_nil_r, <- Hc. destruct c; reflexivity.
  - unfold hash_update at 2. rewrite Hc, IH by reflexivity. cbn [h_v h_in]. rewrite app_assoc. reflexivity.
Qed.
Lemma concat_bytes chunks : Forall is_bytes chunks -> is_bytes (concat chunks).
Proof. induction 1; cbn [concat]; [constructor|]. apply Forall_app. auto. Qed.
Lemma refines_oracle' digest chunks lens : (forall st, is_bytes st -> is_bytes (f st)) -> Forall is_bytes chunks ->
  Forall (fun d => small (length d)) chunks -> Forall small lens ->
  exists fuel0, forall fuel, fuel0 <= fuel ->
    hash_run f fuel digest chunks lens =
    Ok (oracle_run (shake f) (hash_final (fold_left hash_update chunks (hash_init digest))) lens).
Proof.
  intros FB B S L. destruct (run_ok f f_len digest chunks lens S L) as [f0 H]. exists f0. intros fuel F.
  rewrite H by assumption. f_equal. rewrite fold_update by reflexivity. unfold hash_final. cbn [hash_init h_v h_in h_off app].
  apply pieces_oracle. intros i. apply shake_is_byte; auto. apply concat_bytes. assumption.
Qed.
Lemma four_lanes' fuel digest (chunks : list (list bytes)) lens i : i < 4 ->
  Forall (fun ds => length ds = 4 /\ exists L, Forall (fun d => length d = L) ds) chunks ->
  hash_run f fuel digest (map (fun ds => nth i ds []) chunks) lens =
  rmap (map (fun outs => nth i outs [])) (hash_run_x4 f fuel digest chunks lens).
Proof.
  intros I C. apply (run4 f f_len); auto. eapply Forall_impl; [|exact C].
  intros ds (A & L & B). exists L. split; assumption.
Qed.
Lemma four_outputs' digest (chunks : list (list bytes)) lens :
  Forall (fun ds => length ds = 4 /\ exists L, Forall (fun d => length d = L) ds /\ (N.of_nat L + 200 <= 2 ^ 32)%N) chunks ->
  Forall small lens ->
  exists fuel0, forall fuel, fuel0 <= fuel -> exists outs, hash_run_x4 f fuel digest chunks lens = Ok outs /\
    forall i, i < 4 -> map (fun o => nth i o []) outs = pieces (shake f (digest =? 32) (concat (map (fun ds => nth i ds []) chunks))) 0 lens.
Proof.
  intros C L.
  assert (C' : Forall (fun ds : list bytes => length ds = 4 /\ exists L, Forall (fun d => length d = L) ds) chunks).
  { eapply Forall_impl; [|exact C]. cbn. intros ds (A & L0 & B & _). eauto. }
  assert (R : forall i, i < 4 -> exists fuel0, forall fuel, fuel0 <= fuel ->
    hash_run f fuel digest (map (fun ds => nth i ds []) chunks) lens =
      Ok (pieces (shake f (digest =? 32) (concat (map (fun ds => nth i ds []) chunks))) 0 lens)).
  { intros i I. apply run_ok; auto. apply Forall_map. eapply Forall_impl; [|exact C].
    intros ds (A & L0 & B & S). unfold small. rewrite Forall_forall in B. rewrite (B (nth i ds [])); auto. apply nth_In. lia. }
  destruct (R 0 ltac:(lia)) as [f0 R0], (R 1 ltac:(lia)) as [f1 R1], (R 2 ltac:(lia)) as [f2 R2], (R 3 ltac:(lia)) as [f3 R3].
  exists (f0 + f1 + f2 + f3). intros fuel F.
  pose proof (four_lanes' fuel digest chunks lens) as X.
  destruct (hash_run_x4 f fuel digest chunks lens) as [outs| | |].
  2, 3, 4: exfalso; specialize (X 0 ltac:(lia) C'); rewrite R0 in X by lia; discriminate.
  exists outs. split; [reflexivity|]. intros i I. specialize (X i I C'). cbn [rmap] in X.
  assert (E : i = 0 \/ i = 1 \/ i = 2 \/ i = 3) by lia.
  destruct E as [E|[E|[E|E]]]; subst i; [rewrite R0 in X by lia|rewrite R1 in X by lia|rewrite R2 in X by lia|rewrite R3 in X by lia]; inversion X; reflexivity.
Qed.
End Perm.

Lemma long_string : exists b : bytes, N.of_nat (length b) = (2 ^ 32)%N.
Proof. exists (repeat 0%N (N.to_nat (2 ^ 32))). rewrite repeat_length, N2Nat.id. reflexivity. Qed.
Lemma long_number : exists n : nat, N.of_nat n = (2 ^ 31)%N.
Proof. exists (N.to_nat (2 ^ 31)). apply N2Nat.id. Qed.
Lemma split_matters : exists (a b : bytes) (digest : nat), forall f, (forall st : bytes, length st = 200 -> length (f st) = 200) ->
  (exists fuel0, forall fuel, fuel0 <= fuel -> exists o, hash_run f fuel digest [a ++ b] [32] = Ok o) /\
  (exists fuel0, forall fuel, fuel0 <= fuel -> hash_run f fuel digest [a; b] [32] = OutOfFuel).
Proof.
  destruct long_string as [b B]. exists [0%N], b, 32. intros f FL. split.
  - destruct (last_ok f FL 32 [] ([0%N] ++ b) [32]) as [f0 H].
    + constructor.
    + rewrite app_length. cbn [length]. clear - B. lia.
    + constructor; [|constructor]. unfold small. cbn. lia.
    + left. reflexivity.
    + exists f0. intros fuel F. eexists. exact (H fuel F).
  - apply (last_hangs f FL 32 [[0%N]] b [32]).
    + constructor; [|constructor]. unfold small. cbn. lia.
    + rewrite B. reflexivity.
    + cbn. lia.
    + rewrite B. discriminate.
    + rewrite B. reflexivity.
Qed.
Lemma squeeze_split_matters : exists n1 n2 : nat, forall f digest chunks, (forall st : bytes, length st = 200 -> length (f st) = 200) ->
  Forall (fun d => small (length d)) chunks ->
  (exists fuel0, forall fuel, fuel0 <= fuel -> exists o, hash_run f fuel digest chunks [n1; n2] = Ok o) /\
  (exists fuel0, forall fuel, fuel0 <= fuel -> hash_run f fuel digest chunks [n1 + n2] = OutOfFuel).
Proof.
  destruct long_number as [n E]. exists n, n. intros f digest chunks FL S. split.
  - destruct (run_ok f FL digest chunks [n; n] S) as [f0 H].
    + assert (small n) by (unfold small; rewrite E; discriminate). auto.
    + exists f0. intros fuel F. eexists. exact (H fuel F).
  - assert (E2 : N.of_nat (n + n) = (2 ^ 32)%N) by (rewrite Nat2N.inj_add, E; reflexivity).
    apply (squeeze_too_long f FL digest chunks (n + n) []); auto; rewrite E2; try reflexivity; try discriminate.
    destruct (digest =? 32); reflexivity.
Qed.
Lemma rev_len (st : bytes) : length st = 200 -> length (rev st) = 200.
Proof. rewrite rev_length. auto. Qed.
Lemma rev_bytes st : is_bytes st -> is_bytes (rev st).
Proof. unfold is_bytes. rewrite !Forall_forall. intros H x Hx. apply H. apply in_rev. assumption. Qed.
Lemma rev_case : (forall st : bytes, length st = 200 -> length (rev st) = 200) /\ (forall st, is_bytes st -> is_bytes (rev st)) /\
  hash_run (@rev N) 1000 32 [repeat 1%N 100; []; repeat 2%N 200] [3; 0; 170] =
  Ok (pieces (shake (@rev N) true (repeat 1%N 100 ++ repeat 2%N 200)) 0 [3; 0; 170]) /\
  hash_run (@rev N) 1000 64 [repeat 1%N 135] [3; 4] = Ok (pieces (shake (@rev N) false (repeat 1%N 135)) 0 [3; 4]).
Proof. split; [exact rev_len|]. split; [exact rev_bytes|]. split; vm_compute; reflexivity. Qed.
Lemma rev_case4 : exists o, hash_run_x4 (@rev N) 1000 32 [repeat [7%N] 4; [repeat 1%N 170; repeat 2%N 170; repeat 3%N 170; repeat 4%N 170]] [3; 170] = Ok o /\
  nth 0 (nth 1 o []) [] <> nth 3 (nth 1 o []) [].
Proof. eexists. split; [vm_compute; reflexivity|]. vm_compute. discriminate. Qed.
