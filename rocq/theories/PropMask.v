(** Property theorems about what a signature discloses of the key (C43).
    [repetition I c key pt tapes rs R] (MaskSpec.v) is one repetition of signing with given party tapes, coefficients rs and
    evaluation point R; it returns everything computed from the key that is hashed or stored in the signature.
    [witness I pt ct key]: key is a secret key for the public key (pt, ct).  [with_tape tapes m tape]: the tape of party m
    is replaced.  [shows d kd td pd a b]: d has these corrections and these opened values of the polynomials S_j, T_j. *)
From Coq Require Import Arith NArith ZArith List Bool Lia.
From Verif Require Import Prelude FieldModel FieldSpec PolyModel Instances HashModel TreeModel TreeSpec AesBase AesShares AesModel BanquetModel BanquetPure BanquetApi MaskSpec MaskFacts PropShares FreeSpec.
Import ListNotations.

(** C43, perfect masking: for every key, all tapes of the other parties and every R outside the excluded points, each
    choice of the corrections and of the opened values S_j(R), T_j(R) is produced by exactly one tape of the closed party
    m.  A uniformly random tape therefore gives uniformly random values whatever the key is. *)
Theorem C43_perfect_masking : forall I c, regular I -> init_extension_field (lambda I) = Ok c ->
  forall pt ct, str (pt_size I) pt -> forall tapes rs R,
  length tapes = num_parties I -> Forall (str (tape_size I)) tapes ->
  length rs = m1 I -> Forall (elt (lambda I)) rs -> elt (lambda I) R ->
  forall key m kd td pd a b, witness I pt ct key -> m < num_parties I -> ~ In R (get_first_n_field_elements c (m2 I)) ->
  str (key_size (i_aes I)) kd -> str (num_sboxes (i_aes I)) td ->
  length pd = m2 I + 1 -> Forall (elt (lambda I)) pd -> length a = m1 I -> Forall (elt (lambda I)) a -> length b = m1 I -> Forall (elt (lambda I)) b ->
  exists tape, str (tape_size I) tape /\
    (exists d, repetition I c key pt (with_tape tapes m tape) rs R = Ok d /\ shows d kd td pd a b) /\
    forall tape' d', str (tape_size I) tape' -> repetition I c key pt (with_tape tapes m tape') rs R = Ok d' -> shows d' kd td pd a b -> tape' = tape.
Proof. exact api_mask_unique. Qed.
Print Assumptions C43_perfect_masking.

(** C43, nothing else is disclosed: two runs with the same opened tapes, the same challenges and the same public key that
    agree on these values agree on all broadcasts, on P(R) and on every party's shares, whatever the two keys are. *)
Theorem C43_nothing_else : forall I c, regular I -> init_extension_field (lambda I) = Ok c ->
  forall pt ct, str (pt_size I) pt -> forall tapes rs R,
  length tapes = num_parties I -> Forall (str (tape_size I)) tapes ->
  length rs = m1 I -> Forall (elt (lambda I)) rs -> elt (lambda I) R ->
  forall key key' m tape tape' d d', witness I pt ct key -> witness I pt ct key' -> m < num_parties I ->
  str (tape_size I) tape -> str (tape_size I) tape' ->
  repetition I c key pt (with_tape tapes m tape) rs R = Ok d -> repetition I c key' pt (with_tape tapes m tape') rs R = Ok d' ->
  shows d (d_key_delta d') (d_t_delta d') (d_P_delta d') (v_a (d_opened d')) (v_b (d_opened d')) -> d = d'.
Proof. exact api_mask_determined. Qed.
Print Assumptions C43_nothing_else.

(** C43 as stated: for any two secret keys of the same public key, any tapes, challenges and closed party m, the tape of m
    can be changed so that signing with the other key discloses exactly the same. *)
Theorem C43_every_witness : forall I c, regular I -> init_extension_field (lambda I) = Ok c ->
  forall pt ct, str (pt_size I) pt -> forall tapes rs R,
  length tapes = num_parties I -> Forall (str (tape_size I)) tapes ->
  length rs = m1 I -> Forall (elt (lambda I)) rs -> elt (lambda I) R ->
  forall key key' m, witness I pt ct key -> witness I pt ct key' -> m < num_parties I -> ~ In R (get_first_n_field_elements c (m2 I)) ->
  exists d tape', repetition I c key pt tapes rs R = Ok d /\ str (tape_size I) tape' /\ repetition I c key' pt (with_tape tapes m tape') rs R = Ok d.
Proof. exact api_every_witness. Qed.
Print Assumptions C43_every_witness.

(** C43: every repetition of every signature is such a run, at an allowed point. *)
Theorem C43_signature : forall H I key pt ct s t fuel garb st st' msg sig, regular I ->
  str (key_size (i_aes I)) key -> str (pt_size I) pt -> aes_with_sbox_output (key_size (i_aes I)) key pt = Ok ((s, t), Some ct) ->
  sign H fuel garb st I (key, pt ++ ct) msg = (st', Ok sig) -> forall e, e < num_rounds I ->
  let root := stream H (digest_size I =? 32) (le16 (i_params I) ++ key ++ (pt ++ ct) ++ msg) (32 + e * seed_size I) (seed_size I) in
  let tape p := stream H (2 * seed_size I =? 32) (leaf_seed H (s_salt sig) e root (num_parties I) p ++ s_salt sig ++ le16 e ++ le16 p) 0 (tape_size I) in
  exists c pf rs R d, init_extension_field (lambda I) = Ok c /\ nth_error (s_proofs sig) e = Some pf /\
    length rs = m1 I /\ Forall (elt (lambda I)) rs /\ elt (lambda I) R /\ ~ In R (get_first_n_field_elements c (m2 I)) /\
    repetition I c key pt (map tape (seq 0 (num_parties I))) rs R = Ok d /\
    p_sk_delta pf = d_key_delta d /\ p_t_delta pf = d_t_delta d /\ p_P_delta pf = d_P_delta d /\
    p_S_at_R pf = v_a (d_opened d) /\ p_T_at_R pf = v_b (d_opened d) /\ p_P_at_R pf = v_c (d_opened d).
Proof. exact api_signature_repetitions. Qed.
Print Assumptions C43_signature.

(** C43, why the points are excluded: at the k-th of them the opened values are S-box inputs (times the public r_j) and
    outputs themselves, for all tapes. *)
Theorem C43_excluded_points_reveal : forall I c, regular I -> init_extension_field (lambda I) = Ok c ->
  forall pt ct, str (pt_size I) pt -> forall tapes rs R,
  length tapes = num_parties I -> Forall (str (tape_size I)) tapes ->
  length rs = m1 I -> Forall (elt (lambda I)) rs -> elt (lambda I) R ->
  forall key s t k, str (key_size (i_aes I)) key -> aes_with_sbox_output (key_size (i_aes I)) key pt = Ok ((s, t), Some ct) ->
  k < m2 I -> R = nth k (get_first_n_field_elements c (m2 I)) 0%N ->
  exists d, repetition I c key pt tapes rs R = Ok d /\ forall j, j < m1 I ->
    nth j (v_a (d_opened d)) 0%N = gmul c (nth j rs 0%N) (lift c (nth (j + m1 I * k) s 0%N)) /\
    nth j (v_b (d_opened d)) 0%N = lift c (nth (j + m1 I * k) t 0%N).
Proof. exact api_point_reveals. Qed.
Print Assumptions C43_excluded_points_reveal.

(** A concrete case: the first parameter set, a key and plaintext the cipher accepts, 64 different tapes, all coefficients 5,
    R = 65; two different key corrections come from two different tapes of party 3.  (Two keys of one public key with a
    single-block cipher cannot be exhibited, so for C43_every_witness only the case of equal keys is concrete.) *)
Example C43_case : let I := nth 1 instances (mkInst (mkAes 0 0 0 0) 0 0 0 0 0 0 0 0) in
  exists c ct tapes, regular I /\ init_extension_field (lambda I) = Ok c /\ witness I (ex_bytes 77 16) ct (ex_bytes 1 16) /\
  length tapes = num_parties I /\ Forall (str (tape_size I)) tapes /\ NoDup tapes /\
  length (repeat 5%N (m1 I)) = m1 I /\ Forall (elt (lambda I)) (repeat 5%N (m1 I)) /\ elt (lambda I) 65 /\ ~ In 65%N (get_first_n_field_elements c (m2 I)) /\
  exists tape tape', tape <> tape' /\
    (exists d, repetition I c (ex_bytes 1 16) (ex_bytes 77 16) (with_tape tapes 3 tape) (repeat 5%N (m1 I)) 65 = Ok d /\ d_key_delta d = repeat 1%N 16) /\
    (exists d, repetition I c (ex_bytes 1 16) (ex_bytes 77 16) (with_tape tapes 3 tape') (repeat 5%N (m1 I)) 65 = Ok d /\ d_key_delta d = repeat 2%N 16).
Proof.
  cbv zeta. destruct C46_case as (HB & Hk & Hp & (s & t & ct & EA) & tapes & Lt & Ft & ND). set (I := nth 1 instances (mkInst (mkAes 0 0 0 0) 0 0 0 0 0 0 0 0)) in *.
  destruct (init_extension_field (lambda I)) as [c| | |] eqn:Ec; [|discriminate Ec..]. exists c, ct, tapes.
  assert (W : witness I (ex_bytes 77 16) ct (ex_bytes 1 16)) by (split; [exact Hk|exists s, t; exact EA]).
  assert (E0 : forall x : N, (x < 256)%N -> elt (lambda I) x) by (intros x Hx; change (x < 4294967296)%N; lia).
  assert (Fr : forall x k, (x < 256)%N -> Forall (elt (lambda I)) (repeat x k)) by (intros x k Hx; apply Forall_forall; intros y Hy; apply repeat_spec in Hy; subst y; apply E0; exact Hx).
  assert (NR : ~ In 65%N (get_first_n_field_elements c (m2 I))).
  { injection Ec as <-. intros X. vm_compute in X. repeat (destruct X as [X|X]; [discriminate X|]). exact X. }
  assert (Sr : forall x k, (x < 256)%N -> str k (repeat x k)) by (intros x k Hx; split; [apply repeat_length|apply Forall_forall; intros y Hy; apply repeat_spec in Hy; subst y; exact Hx]).
  assert (X : forall x, (x < 256)%N -> exists tape d, repetition I c (ex_bytes 1 16) (ex_bytes 77 16) (with_tape tapes 3 tape) (repeat 5%N (m1 I)) 65 = Ok d /\ d_key_delta d = repeat x 16).
  { intros x Hx. destruct (C43_perfect_masking I c HB Ec (ex_bytes 77 16) ct Hp tapes (repeat 5%N (m1 I)) 65%N Lt Ft (repeat_length _ _) (Fr 5%N _ eq_refl) (E0 65%N eq_refl)
      (ex_bytes 1 16) 3 (repeat x 16) (repeat 7%N (num_sboxes (i_aes I))) (repeat 9%N (m2 I + 1)) (repeat 11%N (m1 I)) (repeat 13%N (m1 I)) W) as (tape & _ & (d & D1 & D2) & _);
      auto; try apply repeat_length; try (apply Fr; reflexivity); try (apply Sr; [assumption || reflexivity]).
    - apply Nat.ltb_lt. reflexivity.
    - exists tape, d. split; [exact D1|apply D2]. }
  destruct (X 1%N eq_refl) as (tape & d & D1 & D2). destruct (X 2%N eq_refl) as (tape' & d' & D1' & D2').
  do 10 (split; [solve [assumption | reflexivity | apply repeat_length | apply Fr; reflexivity | apply E0; reflexivity]|]). exists tape, tape'. split.
  - intros ->. rewrite D1 in D1'. injection D1' as <-. rewrite D2 in D2'. discriminate D2'.
  - split; [exists d|exists d']; auto.
Qed.
