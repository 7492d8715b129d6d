(** Property theorems about the distribution of the challenges (C62): how many of the equally many possible hash outputs
    lead to given challenges.  [stream H v d 0 n]: the first n bytes of the hash output for the input d; [str n s]: s is
    n bytes.  [phase_1/2/3_expand] expand the digests h_1, h_2, h_3 to the coefficients, evaluation points and opened
    parties; [fuel] bounds the candidates a draw may use.
    [drawn good T cands]: the first T of the candidates that are good; [party_cands I q s], [point_cands I q s]: the
    candidates in q windows of s, a number of ceil(log2 N) bits or a field element each. *)
From Coq Require Import Arith NArith ZArith List Bool Lia.
From Verif Require Import Prelude FieldModel Instances HashModel TreeModel BanquetModel AesShares BanquetPure BanquetVerify Serialize BanquetApi History SignFacts HashFacts Unbias UnbiasApi PropSign FreeSpec.
Import ListNotations.

(** C62, opened parties: for every list of T parties exactly (256/N)^T of the 256^T possible outputs lead to it. *)
Theorem C62_opened_parties : forall I, regular I -> forall ms, length ms = num_rounds I -> Forall (fun p => p < num_parties I) ms ->
  exists l, NoDup l /\ Forall (str (num_rounds I)) l /\ length l = (256 / num_parties I) ^ num_rounds I /\
  forall H fuel garb h3, 1 <= fuel -> (phase_3_expand H I fuel garb h3 = Ok ms <-> In (stream H (digest_size I =? 32) h3 0 (num_rounds I)) l).
Proof. exact party_api. Qed.
Print Assumptions C62_opened_parties.
(** ... and in signatures: the parties a signature leaves closed are those, for the digest it contains. *)
Theorem C62_signatures : forall I, regular I -> forall ms, length ms = num_rounds I -> Forall (fun p => p < num_parties I) ms ->
  exists l, NoDup l /\ Forall (str (num_rounds I)) l /\ length l = (256 / num_parties I) ^ num_rounds I /\
  forall H kf r kp fuel garb st st' msg sig, rng_bytes r -> keygen kf I r = Ok kp -> sign H fuel garb st I kp msg = (st', Ok sig) ->
  (map (fun p => snd (p_reveal p)) (s_proofs sig) = ms <-> In (stream H (digest_size I =? 32) (s_h3 sig) 0 (num_rounds I)) l).
Proof. exact sign_parties. Qed.
Print Assumptions C62_signatures.

(** C62, opened parties for any number of parties: among the strings of q windows the same number K leads to each list of
    T parties, and K is positive as soon as q is at least T. *)
Theorem C62_opened_parties_any : forall I q, 1 <= num_parties I -> (N.of_nat (num_parties I) < 65536)%N ->
  let w := if 256 <? num_parties I then 2 else 1 in
  exists K, (num_rounds I <= q -> 1 <= K) /\
  forall ms, length ms = num_rounds I -> Forall (fun p => p < num_parties I) ms -> exists l, NoDup l /\
  (forall s, In s l <-> str (q * w) s /\ drawn (fun p => p <? num_parties I) (num_rounds I) (party_cands I q s) = ms) /\ length l = K.
Proof. exact party_count. Qed.
Print Assumptions C62_opened_parties_any.
Theorem C62_opened_parties_drawn : forall H I fuel garb h3 q, 1 <= num_parties I -> (N.of_nat (num_parties I) < 65536)%N -> q <= fuel ->
  let s := stream H (digest_size I =? 32) h3 0 (q * (if 256 <? num_parties I then 2 else 1)) in
  let ms := drawn (fun p => p <? num_parties I) (num_rounds I) (party_cands I q s) in
  length ms = num_rounds I -> phase_3_expand H I fuel garb h3 = Ok ms.
Proof. exact phase_3_drawn. Qed.
Print Assumptions C62_opened_parties_drawn.

(** C62, coefficients: exactly one output leads to given coefficients. *)
Theorem C62_coefficients : forall I c, init_extension_field (lambda I) = Ok c -> forall rss, length rss = num_rounds I ->
  Forall (fun rs => length rs = m1 I /\ Forall (fun r => (r < 256 ^ N.of_nat (lambda I))%N) rs) rss ->
  exists s, str (num_rounds I * m1 I * lambda I) s /\
  forall H h1, phase_1_expand H I c h1 = Ok rss <-> stream H (digest_size I =? 32) h1 0 (num_rounds I * m1 I * lambda I) = s.
Proof. exact coeff_api. Qed.
Print Assumptions C62_coefficients.

(** C62, evaluation points: among the strings of q windows the same number leads to each list of T field elements
    outside the m2 interpolation points. *)
Theorem C62_evaluation_points : forall I c q, exists K, (num_rounds I <= q -> 1 <= K) /\
  forall Rs, length Rs = num_rounds I -> Forall (fun R => (R < 256 ^ N.of_nat (lambda I))%N /\ ~ In R (get_first_n_field_elements c (m2 I))) Rs ->
  exists l, NoDup l /\
  (forall s, In s l <-> str (q * lambda I) s /\ drawn (allowed_point I c) (num_rounds I) (point_cands I q s) = Rs) /\ length l = K.
Proof. exact point_count. Qed.
Print Assumptions C62_evaluation_points.
Theorem C62_evaluation_points_drawn : forall H I c fuel h2 q, proper I -> init_extension_field (lambda I) = Ok c -> q <= fuel ->
  let s := stream H (digest_size I =? 32) h2 0 (q * lambda I) in
  let Rs := drawn (allowed_point I c) (num_rounds I) (point_cands I q s) in
  length Rs = num_rounds I -> phase_2_expand H I c fuel h2 (get_first_n_field_elements c (m2 I)) = Ok Rs.
Proof. exact phase_2_drawn. Qed.
Print Assumptions C62_evaluation_points_drawn.

(** For the first parameter set (64 parties, 31 repetitions, 4-byte elements): the parties 0, 1, ..., 30 come from
    4^31 outputs; the evaluation points 2000, 2001, ... are allowed; four candidates above 4 are skipped when N is 5. *)
Example C62_case : regular I1 /\ (256 / num_parties I1) ^ 1 = 4 /\ length (seq 0 (num_rounds I1)) = num_rounds I1 /\ Forall (fun p => p < num_parties I1) (seq 0 (num_rounds I1)) /\
  (exists c, init_extension_field (lambda I1) = Ok c /\
    Forall (fun R => (R < 256 ^ N.of_nat (lambda I1))%N /\ ~ In R (get_first_n_field_elements c (m2 I1))) (map (fun i => 2000 + N.of_nat i)%N (seq 0 (num_rounds I1)))) /\
  drawn (fun p => p <? 5) 3 (party_cands (mkInst (i_aes I1) 32 16 3 5 4 1 1 1) 7 [5; 255; 12; 6; 1; 7; 8]%N) = [4; 1; 0].
Proof.
  split; [apply builtin_regular; exists 1%Z; reflexivity|]. split; [reflexivity|]. split; [apply seq_length|]. split.
  - apply Forall_forall. intros p Hp. apply in_seq in Hp. change (num_parties I1) with 64. change (num_rounds I1) with 31 in Hp. lia.
  - split; [|vm_compute; reflexivity].
    assert (X : match init_extension_field (lambda I1) with Ok c => forallb (fun R => (R <? 256 ^ N.of_nat (lambda I1))%N && negb (existsb (N.eqb R) (get_first_n_field_elements c (m2 I1)))) (map (fun i => 2000 + N.of_nat i)%N (seq 0 (num_rounds I1))) | _ => false end = true)
      by (vm_cast_no_check (eq_refl true)).
    destruct (init_extension_field (lambda I1)) as [c| | |]; [|discriminate X..]. exists c. split; [reflexivity|].
    rewrite forallb_forall in X. apply Forall_forall. intros R HR. specialize (X R HR). apply andb_true_iff in X. destruct X as [X Y]. split; [apply N.ltb_lt; exact X|].
    intros Q. apply negb_true_iff in Y. apply not_true_iff_false in Y. apply Y. apply existsb_exists. exists R. split; [exact Q|apply N.eqb_refl].
Qed.
