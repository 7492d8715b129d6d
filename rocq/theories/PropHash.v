(** Property theorems about hashing: four-way against scalar code (C28), the challenges (C32, C33), the layout of the
    random tapes (C34) and of the containers (C35).  H is the hash function; nothing is assumed about it. *)
From Coq Require Import Arith NArith ZArith List Bool Lia.
From Verif Require Import Prelude FieldModel FieldSpec Instances HashModel TreeModel TreeSpec ContainerModel BanquetModel ListSum BanquetHash BanquetApi HashFacts ChallengeFacts TapeFacts FreeSpec.
Import ListNotations.

(** C28: committing to four seeds is committing to each, ... *)
Theorem C28_commit_four : forall H I s0 s1 s2 s3 salt rep p,
  length s0 = seed_size I -> length s1 = seed_size I -> length s2 = seed_size I -> length s3 = seed_size I ->
  commit_to_4_party_seeds H I s0 s1 s2 s3 salt rep p =
  Ok [commit_to_party_seed H I s0 salt rep p; commit_to_party_seed H I s1 salt rep (p + 1);
      commit_to_party_seed H I s2 salt rep (p + 2); commit_to_party_seed H I s3 salt rep (p + 3)].
Proof. exact commit4. Qed.
Print Assumptions C28_commit_four.
(** ... deriving four tapes is deriving each, ... *)
Theorem C28_tapes_four : forall H I s0 s1 s2 s3 salt rep p, length s1 = length s0 -> length s2 = length s0 -> length s3 = length s0 ->
  generate_4_tapes H I salt rep p s0 s1 s2 s3 =
  Ok [generate_tape H I salt rep p s0; generate_tape H I salt rep (p + 1) s1; generate_tape H I salt rep (p + 2) s2; generate_tape H I salt rep (p + 3) s3].
Proof. exact tapes4. Qed.
Print Assumptions C28_tapes_four.
(** ... and expanding four tree nodes is expanding each: memory holding four seeds and room for eight, against memory
    holding one seed and room for two. *)
Theorem C28_expand_four : forall H salt rep s0 s1 s2 s3 n ss, ss <= 32 -> length s0 = ss -> length s1 = ss -> length s2 = ss -> length s3 = ss ->
  exists c0 c1 c2 c3,
  expand_seed_x4 H salt rep (s0 ++ s1 ++ s2 ++ s3 ++ zeros (8 * ss), [])
    [(SData (0 * ss) ss, SData (4 * ss) (2 * ss)); (SData (1 * ss) ss, SData (6 * ss) (2 * ss));
     (SData (2 * ss) ss, SData (8 * ss) (2 * ss)); (SData (3 * ss) ss, SData (10 * ss) (2 * ss))] n =
  Ok (s0 ++ s1 ++ s2 ++ s3 ++ c0 ++ c1 ++ c2 ++ c3, []) /\
  (forall s k c, In (s, k, c) [(s0, n, c0); (s1, n + 1, c1); (s2, n + 2, c2); (s3, n + 3, c3)] ->
     expand_seed H salt rep (s ++ zeros (2 * ss), []) (SData 0 ss) k (SData ss (2 * ss)) = Ok (s ++ c, []) /\ length c = 2 * ss).
Proof. exact expand_four. Qed.
Print Assumptions C28_expand_four.
Example C28_case : exists s : bytes, length s = 16 /\ length s = seed_size (nth 1 instances (mkInst (mkAes 0 0 0 0) 0 0 0 0 0 0 0 0)).
Proof. exists (repeat 7%N 16). split; reflexivity. Qed.

(** C32: the opened parties are the first T acceptable candidates in the hash output of h_3, they are below N, and
    neither the garbage in the local variable nor a larger bound on the loop changes them. *)
Theorem C32_party_challenges : forall H I fuel garb h3 l, 1 <= num_parties I -> (N.of_nat (num_parties I) < 65536)%N -> phase_3_expand H I fuel garb h3 = Ok l ->
  length l = num_rounds I /\ Forall (fun p => p < num_parties I) l /\
  (exists M, l = filter (fun p => p <? num_parties I) (map (party_candidate H I h3) (seq 0 M))) /\
  (forall fuel' garb', fuel <= fuel' -> phase_3_expand H I fuel' garb' h3 = Ok l).
Proof. exact party_challenges. Qed.
Print Assumptions C32_party_challenges.
(** When N is a power of two up to 256 (all parameter sets) they exist: the e-th output byte modulo N. *)
Theorem C32_party_challenges_power_of_two : forall H I k fuel garb h3, num_parties I = 2 ^ k -> k <= 8 -> 1 <= fuel ->
  phase_3_expand H I fuel garb h3 = Ok (map (fun e => N.to_nat (H (digest_size I =? 32)%nat h3 e mod 256 mod N.of_nat (num_parties I))%N) (seq 0 (num_rounds I))).
Proof. exact party_challenges_pow2. Qed.
Print Assumptions C32_party_challenges_power_of_two.
Theorem C32_parameter_sets : forall I, builtin I -> exists k, num_parties I = 2 ^ k /\ k <= 8.
Proof. exact builtin_pow2. Qed.
Print Assumptions C32_parameter_sets.
Example C32_case : exists l, phase_3_expand (fun _ m i => N.of_nat (length m + 37 * i)) (mkInst AES128_PARAMS 32 16 5 300 10 20 4 1) 9 (fun _ => 201%N) [1%N] = Ok l /\ length l = 5.
Proof. eexists. split; vm_compute; reflexivity. Qed.

(** C33: the evaluation challenges are the first T candidates outside the first m2 points, and are field elements. *)
Theorem C33_evaluation_challenges : forall H I c fuel h2 l, regular I -> init_extension_field (lambda I) = Ok c ->
  phase_2_expand H I c fuel h2 (get_first_n_field_elements c (m2 I)) = Ok l ->
  length l = num_rounds I /\
  Forall (fun R => (R < 2 ^ (8 * N.of_nat (lambda I)))%N /\ ~ In R (get_first_n_field_elements c (m2 I))) l /\
  (exists M, l = filter (fun R => negb (existsb (N.eqb R) (get_first_n_field_elements c (m2 I)))) (map (R_candidate H I h2) (seq 0 M))) /\
  (forall fuel', fuel <= fuel' -> phase_2_expand H I c fuel' h2 (get_first_n_field_elements c (m2 I)) = Ok l).
Proof. exact R_challenges. Qed.
Print Assumptions C33_evaluation_challenges.
(** The coefficients r_j expanded from h_1 are consecutive pieces of the hash output. *)
Theorem C33_coefficients : forall H I c h1, init_extension_field (lambda I) = Ok c ->
  phase_1_expand H I c h1 = Ok (map (fun e => map (fun j => from_bytes (stream H (digest_size I =? 32) h1 ((e * m1 I + j) * lambda I) (lambda I))) (seq 0 (m1 I))) (seq 0 (num_rounds I))).
Proof. exact phase_1_eq. Qed.
Print Assumptions C33_coefficients.
Example C33_case : exists c l, init_extension_field 4 = Ok c /\
  phase_2_expand (fun _ _ i => if i <? 4 then 0%N else N.of_nat i) (mkInst AES128_PARAMS 32 16 5 64 10 20 4 1) c 3 [1%N] (get_first_n_field_elements c 20) = Ok l /\ length l = 5.
Proof. eexists _, _. split; [reflexivity|]. split; vm_compute; reflexivity. Qed.

(** C34: the values the code reads from a tape (key share, S-box output shares, masks of the polynomials, points of P)
    can be chosen freely: some tape yields them; ... *)
Theorem C34_tape_free : forall I, regular I -> forall c k t ms ps, init_extension_field (lambda I) = Ok c -> tape_values I k t ms ps ->
  let tape := tape_layout (lambda I) k t ms ps in
  length tape = tape_size I /\ is_bytes tape /\
  (forall tapes p, length tapes = num_parties I -> Forall (fun x => length x = tape_size I) tapes -> nth_error tapes p = Some tape ->
     (do l <- tape_shares I tapes 0 (key_size (i_aes I)); get l p) = Ok k /\
     (do l <- tape_shares I tapes (key_size (i_aes I)) (num_sboxes (i_aes I)); get l p) = Ok t) /\
  (forall rs sh_s sh_t, length rs = m1 I -> length sh_s = num_sboxes (i_aes I) -> length sh_t = num_sboxes (i_aes I) ->
     exists ss ts, party_points I c rs sh_s sh_t tape = Ok (ss, ts) /\
       map (fun row => nth (m2 I) row 0%N) ss = map fst ms /\ map (fun row => nth (m2 I) row 0%N) ts = map snd ms) /\
  (forall rs p, length rs = m1 I -> exists first, P_share I c rs p tape = Ok (first ++ ps) /\ length first = m2 I).
Proof. exact tape_partition. Qed.
Print Assumptions C34_tape_free.
(** ... and every tape is of that form, so that the pieces cover it and no byte is used twice. *)
Theorem C34_tape_covered : forall I, regular I -> forall tape, length tape = tape_size I -> is_bytes tape ->
  exists k t ms ps, tape_values I k t ms ps /\ tape = tape_layout (lambda I) k t ms ps.
Proof. exact tape_onto. Qed.
Print Assumptions C34_tape_covered.
Example C34_case : exists k t ms ps, tape_values (nth 1 instances (mkInst (mkAes 0 0 0 0) 0 0 0 0 0 0 0 0)) k t ms ps /\ ms <> [].
Proof.
  exists (repeat 3%N 16), (repeat 5%N 200), (repeat (7, 9)%N 10), (repeat 11%N 21). split; [|discriminate].
  constructor; try split; try reflexivity; apply Forall_forall; intros x Hx; apply repeat_spec in Hx; subst x; try split; reflexivity.
Qed.

(** C35: a container has one slot per (repetition, party); writing one leaves all others unchanged. *)
Theorem C35_slots : forall (A : Type) (d : A) reps parties size,
  k_ok (k_new d reps parties size) /\ k_reps (k_new d reps parties size) = reps /\ k_parties (k_new d reps parties size) = parties /\ k_size (k_new d reps parties size) = size.
Proof. exact (fun A d r p s => conj (k_new_ok d r p s) (conj eq_refl (conj eq_refl eq_refl))). Qed.
Print Assumptions C35_slots.
Theorem C35_write_one : forall (A : Type) (c : container A) r p v, k_ok c -> r < k_reps c -> p < k_parties c -> length v = k_size c ->
  exists c', k_put c r p v = Ok c' /\ k_ok c' /\ k_reps c' = k_reps c /\ k_parties c' = k_parties c /\ k_size c' = k_size c /\
    k_get c' r p = Ok v /\
    (forall r' p', r' < k_reps c -> p' < k_parties c -> (r', p') <> (r, p) -> k_get c' r' p' = k_get c r' p').
Proof. exact (fun A => @k_put_ok A). Qed.
Print Assumptions C35_write_one.
Theorem C35_in_bounds : forall (A : Type) (c : container A) r p, k_ok c -> r < k_reps c -> p < k_parties c ->
  exists v, k_get c r p = Ok v /\ length v = k_size c.
Proof. exact container_get. Qed.
Print Assumptions C35_in_bounds.
Theorem C35_get_repetition : forall (A : Type) (c : container A) r, k_ok c -> r < k_reps c ->
  exists vs, k_get_repetition c r = Ok vs /\ length vs = k_parties c /\ forall p, p < k_parties c -> (exists v, nth_error vs p = Some v /\ k_get c r p = Ok v).
Proof. exact container_repetition. Qed.
Print Assumptions C35_get_repetition.
Theorem C35_spans_are_slots : forall (A : Type) (c : container A) r p, p < k_parties c -> nth_error (k_repetition_offsets c r) p = Some (k_offset c r p).
Proof. exact container_spans. Qed.
Print Assumptions C35_spans_are_slots.
(** So a container may be taken for a list of lists of objects, as BanquetModel does. *)
Theorem C35_nested_lists : forall (A : Type) (c : container A), k_ok c ->
  length (k_view c) = k_reps c /\
  (forall r p, r < k_reps c -> p < k_parties c -> (do row <- get (k_view c) r; get row p) = k_get c r p) /\
  (forall r p v, r < k_reps c -> p < k_parties c -> length v = k_size c ->
     exists c' row row', k_put c r p v = Ok c' /\ get (k_view c) r = Ok row /\ set row p v = Ok row' /\ set (k_view c) r row' = Ok (k_view c')).
Proof.
  intros A c K. assert (L : length (k_view c) = k_reps c) by (unfold k_view; rewrite map_length, seq_length; reflexivity). split; [exact L|]. split; [exact (fun r p => k_view_get c r p K)|].
  intros r p v Hr Hp Hv. destruct (k_put_ok c r p v K Hr Hp Hv) as (c' & E & _).
  assert (LR : length (nth r (k_view c) []) = k_parties c).
  { unfold k_view. rewrite nth_map_seq by exact Hr. rewrite map_length, seq_length. reflexivity. }
  exists c', (nth r (k_view c) []), (upd (nth r (k_view c) []) p v). split; [exact E|]. split; [apply get_ok; lia|].
  unfold set. destruct (Nat.ltb_spec p (length (nth r (k_view c) []))) as [_|X]; [|lia]. split; [reflexivity|].
  destruct (Nat.ltb_spec r (length (k_view c))) as [_|X]; [|lia]. f_equal. symmetry. exact (k_view_put c r p v c' K Hr Hp Hv E).
Qed.
Print Assumptions C35_nested_lists.
Example C35_case : exists c, k_put (k_new 0%N 3 4 2) 1 2 [5; 6]%N = Ok c /\ k_get c 1 2 = Ok [5; 6]%N /\ k_get c 1 3 = Ok [0; 0]%N.
Proof. eexists. split; [reflexivity|]. split; reflexivity. Qed.
