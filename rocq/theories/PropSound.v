(** Property theorems about how many challenges let a prover through that does not know the key (C78): quantitative soundness of the
    checks.  [bad_coefs], [bad_point] and [right_pair] are those of C55 (ExtractSpec), [coef_challenge], [point_challenge],
    [party_challenge], [prover], [passes] and [at_least] those of SoundSpec; F = [field_size I] is the number of field elements, P =
    [num_points I] = F - m2 the number of possible evaluation points.  By C62 all challenges of one kind come from equally many
    hash outputs, so the counts are shares of the hash outputs. *)
From Coq Require Import Arith NArith ZArith List Bool Lia.
From Verif Require Import Prelude FieldModel FieldSpec Instances AesSpec BanquetModel Serialize AesShares PropSign VerifyCases BanquetApi Unbias LateSpec ExtractSpec FreeSpec SoundSpec SoundApi.
Import ListNotations.

(** The challenges, all of them: how many there are. *)
Theorem C78_challenges : forall I c, regular I -> init_extension_field (lambda I) = Ok c -> m2 I <= field_size I /\
  (exists l, NoDup l /\ (forall rss, In rss l <-> coef_challenge I rss) /\ length l = (field_size I ^ m1 I) ^ num_rounds I) /\
  (exists l, NoDup l /\ (forall Rs, In Rs l <-> point_challenge I c Rs) /\ length l = num_points I ^ num_rounds I) /\
  (exists l, NoDup l /\ (forall ps, In ps l <-> party_challenge I ps) /\ length l = num_parties I ^ num_rounds I).
Proof. exact all_challenges. Qed.
Print Assumptions C78_challenges.

(** C78, coefficients: S-box inputs s_e and outputs t_e fixed before, at least k repetitions have wrong pairs and coefficients that
    hide them for at most the share choose T k / F^k of the coefficient challenges. *)
Theorem C78_coefficients : forall I c, regular I -> init_extension_field (lambda I) = Ok c ->
  forall (s t : nat -> bytes) k l, (forall e, is_bytes (s e)) -> (forall e, is_bytes (t e)) -> NoDup l ->
  (forall rss, In rss l -> coef_challenge I rss /\ at_least k (num_rounds I) (fun e => bad_coefs I c (nth e rss []) (s e) (t e))) ->
  length l * field_size I ^ k <= choose (num_rounds I) k * (field_size I ^ m1 I) ^ num_rounds I.
Proof. exact coefs_bound. Qed.
Print Assumptions C78_coefficients.
(** C78, evaluation points: coefficients, pairs, tapes and corrections fixed before, at least k repetitions have a bad point for at
    most the share choose T k * (2 m2 / P)^k of the point challenges. *)
Theorem C78_points : forall I c, regular I -> init_extension_field (lambda I) = Ok c ->
  forall (rs : nat -> list N) (s t : nat -> bytes) (tp ds : nat -> nat -> N) k l, NoDup l ->
  (forall Rs, In Rs l -> point_challenge I c Rs /\ at_least k (num_rounds I) (fun e => bad_point I c (rs e) (s e) (t e) (tp e) (ds e) (nth e Rs 0%N))) ->
  length l * num_points I ^ k <= choose (num_rounds I) k * (2 * m2 I) ^ k * num_points I ^ num_rounds I.
Proof. exact points_bound. Qed.
Print Assumptions C78_points.
(** C78, closed parties: guessed in at least k repetitions for at most the share choose T k / N^k. *)
Theorem C78_parties : forall I (g : nat -> nat) k l, NoDup l ->
  (forall ps, In ps l -> party_challenge I ps /\ at_least k (num_rounds I) (fun e => nth e ps 0 = g e)) ->
  length l * num_parties I ^ k <= choose (num_rounds I) k * num_parties I ^ num_rounds I.
Proof. exact parties_bound. Qed.
Print Assumptions C78_parties.
(** C78, together: a prover that chooses its S-box values and tapes first, the corrections knowing all coefficients and the
    parties it cannot open knowing all points passes every repetition for at most
    (F^(m1-1) P N + F^m1 2m2 N + F^m1 P)^T of the (F^m1 P N)^T challenges: the share (1/F + 2m2/P + 1/N)^T. *)
Theorem C78_together : forall I c, regular I -> init_extension_field (lambda I) = Ok c ->
  forall V l, (forall e, is_bytes (pv_in V e)) -> (forall e, is_bytes (pv_out V e)) -> NoDup l ->
  (forall rss Rs ps, In (rss, Rs, ps) l -> coef_challenge I rss /\ point_challenge I c Rs /\ party_challenge I ps /\
     forall e, e < num_rounds I -> passes I c V rss Rs ps e) ->
  let F := field_size I in let P := num_points I in let n := num_parties I in
  length l <= (F ^ (m1 I - 1) * P * n + F ^ m1 I * (2 * m2 I) * n + F ^ m1 I * P) ^ num_rounds I.
Proof. exact passes_bound. Qed.
Print Assumptions C78_together.

(** The bounds are nearly met.  With exactly one wrong pair i, the coefficients hide it if and only if coefficient i mod m1 is 0,
    which is the share 1/F; *)
Theorem C78_one_wrong_pair : forall I c, regular I -> init_extension_field (lambda I) = Ok c ->
  forall s t i rs, is_bytes s -> is_bytes t -> i < num_sboxes (i_aes I) -> ~ right_pair s t i ->
  (forall i', i' < num_sboxes (i_aes I) -> i' <> i -> right_pair s t i') -> length rs = m1 I -> Forall (elt (lambda I)) rs ->
  (bad_coefs I c rs s t <-> nth (i mod m1 I) rs 0%N = 0%N).
Proof. exact one_wrong. Qed.
Print Assumptions C78_one_wrong_pair.
(** and a prover with wrong pairs that are not hidden can make any m2 + 1 points of its choice bad through the corrections: at
    least the share (m2 + 1) / P, if they are fixed before the point is drawn, and any point at all if they are not (see C54). *)
Theorem C78_chosen_points : forall I c, regular I -> init_extension_field (lambda I) = Ok c ->
  forall rs s t tp zs, length rs = m1 I -> Forall (elt (lambda I)) rs -> is_bytes s -> is_bytes t -> (forall off, elt (lambda I) (tp off)) ->
  (exists i, i < num_sboxes (i_aes I) /\ ~ right_pair s t i) -> ~ bad_coefs I c rs s t ->
  NoDup zs -> length zs = m2 I + 1 -> Forall (fun R => elt (lambda I) R /\ ~ In R (get_first_n_field_elements c (m2 I))) zs ->
  exists ds, (forall k, elt (lambda I) (ds k)) /\ forall R, In R zs -> bad_point I c rs s t tp ds R.
Proof. exact choosable. Qed.
Print Assumptions C78_chosen_points.

(** For the first parameter set: the pair 0 is wrong (0 instead of 1), all others are right.  Coefficients 0 hide that, coefficients
    1 do not; then there are corrections that make the m2 + 1 points 2000, 2001, ... bad; and a prover with these pairs passes
    the repetitions 0 to 9 by the coefficients, and the others by guessing party 5. *)
Example C78_case : exists c, regular I1 /\ init_extension_field (lambda I1) = Ok c /\
  let s := 0%N :: repeat 1%N (num_sboxes (i_aes I1) - 1) in let t := repeat 1%N (num_sboxes (i_aes I1)) in
  let zs := map (fun i => 2000 + N.of_nat i)%N (seq 0 (m2 I1 + 1)) in
  (~ right_pair s t 0 /\ forall i, i < num_sboxes (i_aes I1) -> i <> 0 -> right_pair s t i) /\
  bad_coefs I1 c (repeat 0%N (m1 I1)) s t /\ ~ bad_coefs I1 c (repeat 1%N (m1 I1)) s t /\
  (exists ds, forall R, In R zs -> bad_point I1 c (repeat 1%N (m1 I1)) s t (fun _ => 0%N) ds R) /\
  let V := mkProver (fun _ => s) (fun _ => t) (fun _ _ => 0%N) (fun _ _ _ => 0%N) (fun _ _ _ => 5) in
  let rss := repeat (repeat 0%N (m1 I1)) 10 ++ repeat (repeat 1%N (m1 I1)) (num_rounds I1 - 10) in
  let Rs := repeat 2000%N (num_rounds I1) in let ps := repeat 7 10 ++ repeat 5 (num_rounds I1 - 10) in
  coef_challenge I1 rss /\ point_challenge I1 c Rs /\ party_challenge I1 ps /\ forall e, e < num_rounds I1 -> passes I1 c V rss Rs ps e.
Proof. exact sound_run. Qed.
