(** Property theorems about parameters outside the table (C58).  [proper I]: a variant of AES, a field the code supports,
    m1 * m2 S-boxes, a seed size up to 32, fewer than 65536 parties; everything else is free (FreeSpec). *)
From Coq Require Import Arith NArith ZArith List Bool Lia.
From Verif Require Import Prelude FieldModel FieldSpec Instances HashModel AesSpec AesBase AesApi AesShares BanquetModel BanquetVerify Serialize BanquetApi ChallengeFacts SigSpec AnySpec FreeSpec FreeApi FreeVerify PropSign FreeSafe FillerSpec FillerFacts FillerApi.
Import ListNotations.

(** Key pairs are consistent. *)
Theorem C58_keygen : forall I kf r kp, proper I -> rng_bytes r -> keygen kf I r = Ok kp ->
  exists key pt, fst kp = key /\ snd kp = pt ++ flat_map (cipher (nk_of I) key) (blocks (nk_of I) pt) /\
    length key = key_size (i_aes I) /\ length pt = block_size (i_aes I) * num_blocks (i_aes I) /\ ~ In 0%N (all_sbox_inputs (nk_of I) key (blocks (nk_of I) pt)).
Proof. exact free_keygen. Qed.
Print Assumptions C58_keygen.
(** If the number of parties is at most 15 below a power of two, honest signatures verify, survive transport and have the
    expected length. *)
Theorem C58_honest_partial : forall H I kf r kp msg fuel garb st st' sig, proper I -> near_power (num_parties I) -> rng_bytes r -> keygen kf I r = Ok kp ->
  sign H fuel garb st I kp msg = (st', Ok sig) ->
  (forall fuel2 garb2 st2, fuel <= fuel2 -> snd (verify H fuel2 garb2 st2 I (snd kp) sig msg) = Ok true) /\
  exists ser, serialize st' I sig = Ok ser /\
    length ser = 32 + 2 * digest_size I + num_rounds I * (Nat.log2_up (num_parties I) * seed_size I + digest_size I + key_size (i_aes I) + num_sboxes (i_aes I) + (m2 I + 1 + 1 + 2 * m1 I) * lambda I) /\
    forall fuel2 garb2, fuel <= fuel2 -> deserialize H fuel2 garb2 st' I ser = Ok sig.
Proof. exact free_honest. Qed.
Print Assumptions C58_honest_partial.
(** Signing then returns, unless fuel successive candidates for an evaluation point are forbidden or fuel successive candidates
    for an opened party are too large. *)
Theorem C58_returns_partial : forall H I c kf r kp msg fuel garb st, proper I -> near_power (num_parties I) -> init_extension_field (lambda I) = Ok c -> rng_bytes r -> keygen kf I r = Ok kp ->
  (exists sig, snd (sign H fuel garb st I kp msg) = Ok sig) \/
  (snd (sign H fuel garb st I kp msg) = OutOfFuel /\
   ((exists h2 k, forall i, i < fuel -> In (from_bytes (stream H (digest_size I =? 32) h2 ((k + i) * lambda I) (lambda I))) (get_first_n_field_elements c (m2 I))) \/
    (exists h3 k, forall i, i < fuel -> num_parties I <= party_candidate H I h3 (k + i)))).
Proof. exact free_returns. Qed.
Print Assumptions C58_returns_partial.
(** For other numbers of parties every signing call overruns a buffer (as soon as there is a repetition). *)
Theorem C58_overrun_refuted : forall H I kf r kp msg fuel garb st, proper I -> ~ near_power (num_parties I) -> 1 <= num_rounds I -> rng_bytes r -> keygen kf I r = Ok kp ->
  snd (sign H fuel garb st I kp msg) = UB OutOfBounds.
Proof. exact free_overrun. Qed.
Print Assumptions C58_overrun_refuted.
(** Verification of any well-shaped signature, for every number of parties from 2 to 65535 (also those for which signing overruns):
    no undefined behaviour; it accepts exactly if the relations of SigSpec and AnySpec hold; it returns only if the opened indices are the
    ones drawn, i.e. the first candidates below the number of parties, and throws only if they are not; otherwise it is still
    drawing an evaluation point or a party. *)
Theorem C58_verify : forall H I c fuel garb st pk sig msg, proper I -> init_extension_field (lambda I) = Ok c ->
  sig_shape I sig -> str (2 * pt_size I) pk ->
  match snd (verify H fuel garb st I pk sig msg) with
  | Ok b => drawn_parties H I (s_h3 sig) (map (fun e => snd (p_reveal (pf_of sig e))) (seq 0 (num_rounds I))) /\
            (exists X, is_transcript_any H I c pk sig X) /\ forall X, is_transcript_any H I c pk sig X -> (b = true <-> accepts H I c pk msg sig X)
  | Throw x => x = EModifiedSig /\ exists ms, drawn_parties H I (s_h3 sig) ms /\ map (fun e => snd (p_reveal (pf_of sig e))) (seq 0 (num_rounds I)) <> ms
  | UB _ => False
  | OutOfFuel => (exists k, forall i, i < fuel -> forbidden I c (candidate H I sig (k + i)) = true) \/
                 (exists k, forall i, i < fuel -> num_parties I <= party_candidate H I (s_h3 sig) (k + i))
  end.
Proof. exact free_any. Qed.
Print Assumptions C58_verify.
(** For powers of two up to 256 the relations of SigSpec alone, with the hidden party given by one byte of the output; parties are
    then never drawn twice. *)
Theorem C58_verify_power : forall H I c k fuel garb st pk sig msg, proper I -> num_parties I = 2 ^ k -> k <= 8 -> init_extension_field (lambda I) = Ok c ->
  sig_shape I sig -> str (2 * pt_size I) pk -> 1 <= fuel ->
  match snd (verify H fuel garb st I pk sig msg) with
  | Ok b => (forall e, e < num_rounds I -> snd (p_reveal (pf_of sig e)) = hidden_of H I sig e) /\
            (exists X, is_transcript H I c pk sig X) /\ forall X, is_transcript H I c pk sig X -> (b = true <-> accepts H I c pk msg sig X)
  | Throw x => x = EModifiedSig /\ exists e, e < num_rounds I /\ snd (p_reveal (pf_of sig e)) <> hidden_of H I sig e
  | UB _ => False
  | OutOfFuel => exists k, forall i, i < fuel -> forbidden I c (candidate H I sig (k + i)) = true
  end.
Proof. exact free_acceptance. Qed.
Print Assumptions C58_verify_power.
(** Verification does not look at entries of a reveal list that stand for no node, *)
Theorem C58_unused_entries : forall H I fuel garb st pk sig msg e i v, proper I -> sig_shape I sig -> e < num_rounds I -> i < Nat.log2_up (num_parties I) ->
  snd (p_reveal (pf_of sig e)) < num_parties I -> unused (num_parties I) (snd (p_reveal (pf_of sig e))) i -> str (seed_size I) v ->
  sig_shape I (with_entry sig e i v) /\ verify H fuel garb st I pk (with_entry sig e i v) msg = verify H fuel garb st I pk sig msg.
Proof. exact unused_entries. Qed.
Print Assumptions C58_unused_entries.
(** so that an honest signature with such an entry can be changed by anybody into another one that is accepted: unlike with the
    built-in parameters (C40), whatever the hash function. *)
Theorem C58_malleable_refuted : forall H I kf r kp msg fuel garb st st' sig e i, proper I -> near_power (num_parties I) -> rng_bytes r -> keygen kf I r = Ok kp ->
  sign H fuel garb st I kp msg = (st', Ok sig) -> e < num_rounds I -> i < Nat.log2_up (num_parties I) -> unused (num_parties I) (snd (p_reveal (pf_of sig e))) i ->
  exists sig' ser ser', serialize st' I sig = Ok ser /\ serialize st' I sig' = Ok ser' /\ length ser' = length ser /\ ser' <> ser /\
    (forall fuel2 garb2, fuel <= fuel2 -> deserialize H fuel2 garb2 st' I ser' = Ok sig') /\
    forall fuel2 garb2 st2, fuel <= fuel2 -> snd (verify H fuel2 garb2 st2 I (snd kp) sig' msg) = Ok true.
Proof. exact unused_malleable. Qed.
Print Assumptions C58_malleable_refuted.

(** A case outside the table: 25 and 16 parties, 3 repetitions, 20-byte digests, 7-byte seeds, the field of 48 bits; and 33 parties. *)
Definition free_case n : instance := mkInst (mkAes 16 16 1 200) 20 7 3 n 25 8 6 99.
Definition sixties : oracle := fun _ _ _ => 64%N.
Lemma free_proper n : 2 <= n <= 100 -> proper (free_case n).
Proof. intros Hn. constructor; cbn; try lia; auto. Qed.
Example C58_case : ~ builtin (free_case 25) /\ rng_bytes ex_rng /\ (exists kp, forall n, keygen 1 (free_case n) ex_rng = Ok kp) /\
  (forall n, n = 25 \/ n = 16 -> proper (free_case n) /\ near_power n /\ exists kp, keygen 1 (free_case n) ex_rng = Ok kp /\
    forall garb st msg, exists sig, snd (sign sixties 1 garb st (free_case n) kp msg) = Ok sig /\ sig_shape (free_case n) sig) /\
  proper (free_case 33) /\ ~ near_power 33.
Proof.
  assert (R : rng_bytes ex_rng) by (intros i; unfold ex_rng; cbn [snd]; apply Forall_map, Forall_forall; intros j _; destruct (Nat.even i); apply N.mod_lt; discriminate).
  assert (K : exists kp, forall n, keygen 1 (free_case n) ex_rng = Ok kp).
  { assert (K : exists kp, keygen 1 (free_case 2) ex_rng = Ok kp) by (let v := eval vm_compute in (keygen 1 (free_case 2) ex_rng) in match v with Ok ?w => exists w; vm_cast_no_check (eq_refl v) end).
    destruct K as [kp EK]. exists kp. intros n. rewrite <- EK. rewrite keygen_two. reflexivity. }
  split.
  { intros B. pose proof (builtin_forall (fun J => negb (seed_size J =? 7)) eq_refl _ B) as N7. discriminate N7. }
  split; [exact R|]. split; [exact K|]. split; [|split; [apply free_proper; lia|]].
  - intros n Hn. assert (NP : near_power n) by (destruct Hn as [-> | ->]; [exists 5|exists 4]; cbn; lia).
    assert (P : proper (free_case n)) by (apply free_proper; lia). split; [exact P|]. split; [exact NP|]. destruct K as [kp EK]. exists kp. split; [apply EK|]. intros garb st msg.
    destruct (init_extension_field 6) as [c| | |] eqn:Ec; [|discriminate Ec..].
    assert (X : exists sig, snd (sign sixties 1 garb st (free_case n) kp msg) = Ok sig).
    { destruct (C58_returns_partial sixties (free_case n) c 1 ex_rng kp msg 1 garb st P NP Ec R (EK n)) as [X|(_ & [(h2 & k & X)|(h3 & k & X)])]; [exact X|exfalso..].
      + specialize (X 0 (le_n 1)). injection Ec as <-. revert X. change (stream sixties (digest_size (free_case n) =? 32) h2 ((k + 0) * lambda (free_case n)) (lambda (free_case n))) with [64; 64; 64; 64; 64; 64]%N.
        intros X. vm_compute in X. repeat (destruct X as [X|X]; [discriminate X|]). exact X.
      + specialize (X 0 (le_n 1)). unfold party_candidate in X. destruct Hn as [-> | ->]; vm_compute in X; lia. }
    destruct X as [sig E]. exists sig. split; [exact E|]. apply (free_shape sixties (free_case n) 1 ex_rng kp msg 1 garb st (fst (sign sixties 1 garb st (free_case n) kp msg)) sig P NP R (EK n)).
    rewrite <- E. apply surjective_pairing.
  - intros (k & A & B). assert (k <= 5 \/ 6 <= k) as [C|C] by lia.
    + pose proof (Nat.pow_le_mono_r 2 k 5 ltac:(lia) C) as D. cbn in D. lia.
    + pose proof (Nat.pow_le_mono_r 2 6 k ltac:(lia) C) as D. change (2 ^ 6) with 64 in D. lia.
Qed.
(** ... and one with unused entries: 25 parties, the last one hidden. *)
Definition twentyfours : oracle := fun _ _ _ => 24%N.
Example C58_unused_case : near_power 25 /\ unused 25 24 0 /\ unused 25 24 1 /\ unused 25 24 2 /\ ~ unused 25 24 3 /\ exists kp, keygen 1 (free_case 25) ex_rng = Ok kp /\
  forall garb st msg, exists sig, snd (sign twentyfours 1 garb st (free_case 25) kp msg) = Ok sig /\ sig_shape (free_case 25) sig /\ forall e, e < 3 -> snd (p_reveal (pf_of sig e)) = 24.
Proof.
  destruct C58_case as (_ & R & [kp EK] & _). specialize (EK 25).
  assert (NP : near_power 25) by (exists 5; cbn; lia). assert (P : proper (free_case 25)) by (apply free_proper; lia). split; [exact NP|].
  split; [split; [reflexivity|cbn; lia]|]. split; [split; [reflexivity|cbn; lia]|]. split; [split; [reflexivity|cbn; lia]|]. split; [intros [X _]; discriminate X|].
  exists kp. split; [exact EK|]. intros garb st msg. destruct (init_extension_field 6) as [c| | |] eqn:Ec; [|discriminate Ec..].
  assert (X : exists sig, snd (sign twentyfours 1 garb st (free_case 25) kp msg) = Ok sig).
  { destruct (C58_returns_partial twentyfours (free_case 25) c 1 ex_rng kp msg 1 garb st P NP Ec R EK) as [X|(_ & [(h2 & k & X)|(h3 & k & X)])]; [exact X|exfalso..].
    + specialize (X 0 (le_n 1)). injection Ec as <-. revert X. change (stream twentyfours (digest_size (free_case 25) =? 32) h2 ((k + 0) * lambda (free_case 25)) (lambda (free_case 25))) with [24; 24; 24; 24; 24; 24]%N.
      intros X. vm_compute in X. repeat (destruct X as [X|X]; [discriminate X|]). exact X.
    + specialize (X 0 (le_n 1)). unfold party_candidate in X. vm_compute in X. lia. }
  destruct X as [sig E]. exists sig. split; [exact E|]. assert (ES : sign twentyfours 1 garb st (free_case 25) kp msg = (fst (sign twentyfours 1 garb st (free_case 25) kp msg), Ok sig)) by (rewrite <- E; apply surjective_pairing).
  pose proof (free_shape twentyfours (free_case 25) 1 ex_rng kp msg 1 garb st _ sig P NP R EK ES) as SS. split; [exact SS|]. intros e He.
  destruct (free_cases (free_case 25) 1 ex_rng kp P NP R EK) as (c' & key & pt & ct & OK & -> & Hk & Hp & Hct).
  destruct (sign_shape twentyfours (free_case 25) c' _ OK key pt ct Hk Hp Hct 1 garb st msg sig _ ES) as (_ & _ & M).
  destruct (phase_3_filter twentyfours (free_case 25) 1 garb (s_h3 sig) _ ltac:(cbn; lia) eq_refl (M 1 garb (le_n 1))) as (L & M0 & EM).
  assert (J : In (snd (p_reveal (pf_of sig e))) (map (fun p => snd (p_reveal p)) (s_proofs sig))).
  { apply (in_map (fun p => snd (p_reveal p))). apply nth_In. rewrite (ss_len _ _ SS). exact He. }
  rewrite EM in J. apply filter_In in J. destruct J as [J _]. apply in_map_iff in J. destruct J as (k & <- & _). reflexivity.
Qed.
(** ... and an accepted signature for 33 parties, although none can be made by signing: party 0 hidden, everything else zero,
    and digests as the (constant) hash function gives them. *)
Definition blank_33 : signature :=
  mkSig (zeros 32) (repeat 64%N 20) (repeat 64%N 20)
    (repeat (mkProof (repeat (zeros 7) 6, 0) (zeros 20) (zeros 16) (zeros 200) (repeat 0%N 9) 0%N (repeat 0%N 25) (repeat 0%N 25)) 3).
Lemma str_repeat v n : (v < 256)%N -> str n (repeat v n).
Proof. intros Hv. split; [apply repeat_length|]. apply Forall_forall. intros x J. apply repeat_spec in J. subst x. exact Hv. Qed.
Example C58_verify_case : proper (free_case 33) /\ ~ near_power 33 /\ sig_shape (free_case 33) blank_33 /\ str (2 * pt_size (free_case 33)) (zeros 32) /\
  forall fuel garb st msg, 1 <= fuel -> snd (verify sixties fuel garb st (free_case 33) (zeros 32) blank_33 msg) = Ok true.
Proof.
  assert (P : proper (free_case 33)) by (apply free_proper; lia). split; [exact P|]. split; [apply C58_case|].
  assert (SS : sig_shape (free_case 33) blank_33).
  { constructor; try (apply str_repeat; reflexivity); [reflexivity|]. apply Forall_forall. intros p J. apply repeat_spec in J. subst p.
    constructor; cbn [fst snd p_reveal p_C p_sk_delta p_t_delta p_P_delta p_P_at_R p_S_at_R p_T_at_R]; try (apply str_repeat; reflexivity); try reflexivity.
    - intros v J. apply repeat_spec in J. subst v. apply str_repeat. reflexivity.
    - split; [reflexivity|]. apply Forall_forall. intros x J. apply repeat_spec in J. subst x. reflexivity.
    - split; [reflexivity|]. apply Forall_forall. intros x J. apply repeat_spec in J. subst x. reflexivity.
    - split; [reflexivity|]. apply Forall_forall. intros x J. apply repeat_spec in J. subst x. reflexivity. }
  split; [exact SS|]. split; [apply str_repeat; reflexivity|]. intros fuel garb st msg Hf.
  destruct (init_extension_field 6) as [c| | |] eqn:Ec; [|discriminate Ec..].
  pose proof (C58_verify sixties (free_case 33) c fuel garb st (zeros 32) blank_33 msg P Ec SS (str_repeat 0%N 32 eq_refl)) as V.
  assert (PC : forall h k, party_candidate sixties (free_case 33) h k = 0) by (intros h k; reflexivity).
  assert (DG : forall i, digest sixties (free_case 33) i = repeat 64%N 20) by (intros i; reflexivity).
  destruct (snd (verify sixties fuel garb st (free_case 33) (zeros 32) blank_33 msg)) as [b|x|u|].
  - destruct V as (_ & [X TX] & B). f_equal. apply (B X TX). constructor; [apply DG|apply DG|]. intros e He. change (num_rounds (free_case 33)) with 3 in He.
    destruct e as [|[|[|e]]]; [| | |lia]; injection Ec as <-; vm_compute; reflexivity.
  - exfalso. destruct V as (_ & ms & [L [M EM]] & Ne). apply Ne. change (num_rounds (free_case 33)) with 3 in *.
    assert (Z : forall y, In y ms -> y = 0). { intros y J. rewrite EM in J. apply filter_In in J. destruct J as [J _]. apply in_map_iff in J. destruct J as (k & <- & _). apply PC. }
    destruct ms as [|a [|b [|d [|]]]]; try discriminate L. rewrite (Z a), (Z b), (Z d) by (cbn; auto). reflexivity.
  - contradiction.
  - exfalso. destruct V as [[k X]|[k X]]; specialize (X 0 ltac:(lia)).
    + injection Ec as <-. unfold candidate in X. change (stream sixties (digest_size (free_case 33) =? 32) (h2_of sixties (free_case 33) blank_33) ((k + 0) * lambda (free_case 33)) (lambda (free_case 33))) with [64; 64; 64; 64; 64; 64]%N in X.
      vm_compute in X. discriminate X.
    + rewrite PC in X. change (num_parties (free_case 33)) with 33 in X. lia.
Qed.
