(** Key generation, signing and verification with freely chosen parameters (C58). *)
From Coq Require Import Arith NArith ZArith List Bool Lia.
From Verif Require Import Prelude FieldModel FieldSpec FieldApi FieldLin PolyModel Instances HashModel TreeModel TreeSpec TreeApi TreeRev TreeProofs TreeExpand AesSpec AesModel AesBase AesApi AesShares BanquetModel ContainerModel ListSum BanquetHash BanquetPure BanquetVerify BanquetSign BanquetPoly BanquetCtx BanquetRun Serialize BanquetApi ChallengeFacts FreeSpec.
Import ListNotations.

Lemma free_cases I kf r kp : proper I -> near_power (num_parties I) -> rng_bytes r -> keygen kf I r = Ok kp ->
  exists c key pt ct, inst_ok I c (nk_of I) /\ kp = (key, pt ++ ct) /\ str (key_size (i_aes I)) key /\ str (pt_size I) pt /\ aes_n (nk_of I) key pt = Some ct.
Proof.
  intros P NP HR E. destruct (proper_ok I P NP) as [c OK]. destruct (keygen_ok I c _ r kf kp OK HR E) as (key & pt & ct & A). exists c, key, pt, ct. auto.
Qed.

(** *** drawing the opened parties *)
Lemma sample_party_stuck H I v m fuel : 1 <= num_parties I -> (N.of_nat (num_parties I) < 65536)%N -> forall hi k,
  (sample_party H I fuel hi (mkCtx v m (Some (k * squeeze_size I))) = OutOfFuel /\ forall i, i < fuel -> num_parties I <= cand_at H I v m (k + i)) \/
  exists p k', sample_party H I fuel hi (mkCtx v m (Some (k * squeeze_size I))) = Ok (p, mkCtx v m (Some (k' * squeeze_size I))).
Proof.
  intros HN1 HN2. induction fuel as [|f IH]; intros hi k; [left; split; [reflexivity|intros; lia]|]. cbn [sample_party hash_squeeze h_v h_in h_off].
  assert (EX : N.land (if squeeze_size I =? 2 then le_word (stream H v m (k * squeeze_size I) (squeeze_size I)) else (le_word (stream H v m (k * squeeze_size I) (squeeze_size I)) + 256 * hi)%N) (party_mask I) =
     (le_word (stream H v m (k * squeeze_size I) (squeeze_size I)) mod 2 ^ N.of_nat (Nat.log2_up (num_parties I)))%N).
  { destruct (squeeze_size_cases I HN1) as [[-> _]|[S1 _]]; [cbn [Nat.eqb]; apply land_mask; assumption|].
    rewrite S1. cbn [Nat.eqb]. rewrite land_byte by assumption. apply land_mask; assumption. }
  rewrite EX. replace (k * squeeze_size I + squeeze_size I) with (S k * squeeze_size I) by (cbn; lia).
  destruct (N.leb_spec (N.of_nat (num_parties I)) (le_word (stream H v m (k * squeeze_size I) (squeeze_size I)) mod 2 ^ N.of_nat (Nat.log2_up (num_parties I)))) as [C|C].
  - match goal with |- context [sample_party H I f ?h _] => destruct (IH h (S k)) as [[A B]|B]; [left|right; exact B] end. split; [exact A|]. intros i Hi. destruct i as [|i].
    + rewrite Nat.add_0_r. unfold cand_at. lia.
    + rewrite Nat.add_succ_r. apply (B i). lia.
  - right. eexists _, (S k). reflexivity.
Qed.
Lemma phase_3_stuck H I fuel garb h3 : 1 <= num_parties I -> (N.of_nat (num_parties I) < 65536)%N -> phase_3_expand H I fuel garb h3 = OutOfFuel ->
  exists k, forall i, i < fuel -> num_parties I <= party_candidate H I h3 (k + i).
Proof.
  intros HN1 HN2. unfold phase_3_expand. change (hash_final (hash_update (hash_init (digest_size I)) h3)) with (mkCtx (digest_size I =? 32) h3 (Some (0 * squeeze_size I))).
  assert (G : forall n k e, sample_parties H I fuel garb e n (mkCtx (digest_size I =? 32) h3 (Some (k * squeeze_size I))) = OutOfFuel -> exists k', forall i, i < fuel -> num_parties I <= party_candidate H I h3 (k' + i)); [|apply G].
  induction n as [|n IHn]; intros k e; cbn [sample_parties]; [discriminate|].
  destruct (sample_party_stuck H I (digest_size I =? 32) h3 fuel HN1 HN2 (garb e mod 256)%N k) as [[-> B]|(p & k' & ->)]; [intros _; exists k; exact B|]. cbn [bind].
  specialize (IHn k' (S e)). destruct (sample_parties H I fuel garb (S e) n (mkCtx (digest_size I =? 32) h3 (Some (k' * squeeze_size I)))); cbn [bind]; try discriminate. intros _. apply IHn. reflexivity.
Qed.

(** *** the statements of PropFree *)
Lemma free_returns H I c kf r kp msg fuel garb st : proper I -> near_power (num_parties I) -> init_extension_field (lambda I) = Ok c -> rng_bytes r -> keygen kf I r = Ok kp ->
  (exists sig, snd (sign H fuel garb st I kp msg) = Ok sig) \/
  (snd (sign H fuel garb st I kp msg) = OutOfFuel /\
   ((exists h2 k, forall i, i < fuel -> In (from_bytes (stream H (digest_size I =? 32) h2 ((k + i) * lambda I) (lambda I))) (get_first_n_field_elements c (m2 I))) \/
    (exists h3 k, forall i, i < fuel -> num_parties I <= party_candidate H I h3 (k + i)))).
Proof.
  intros P NP Hc HR EK. destruct (free_cases I kf r kp P NP HR EK) as (c' & key & pt & ct & OK & -> & Hk & Hp & Hct).
  assert (c' = c) by (pose proof (io_field _ _ _ OK) as X; rewrite Hc in X; injection X as <-; reflexivity). subst c'.
  destruct (pr_parties _ P) as [H2 HN].
  destruct (sign_total H I c (nk_of I) OK key pt ct Hk Hp Hct fuel garb st msg) as [[E [[h2 E2]|[h3 E3]]]|E]; [right|right|left; exact E].
  - split; [exact E|]. left. exists h2. exact (phase_2_stuck H I c _ fuel h2 OK E2).
  - split; [exact E|]. right. exists h3. apply (phase_3_stuck H I fuel garb h3); [lia|exact HN|exact E3].
Qed.
Lemma free_honest H I kf r kp msg fuel garb st st' sig : proper I -> near_power (num_parties I) -> rng_bytes r -> keygen kf I r = Ok kp -> sign H fuel garb st I kp msg = (st', Ok sig) ->
  (forall fuel2 garb2 st2, fuel <= fuel2 -> snd (verify H fuel2 garb2 st2 I (snd kp) sig msg) = Ok true) /\
  exists ser, serialize st' I sig = Ok ser /\
    length ser = 32 + 2 * digest_size I + num_rounds I * (Nat.log2_up (num_parties I) * seed_size I + digest_size I + key_size (i_aes I) + num_sboxes (i_aes I) + (m2 I + 1 + 1 + 2 * m1 I) * lambda I) /\
    forall fuel2 garb2, fuel <= fuel2 -> deserialize H fuel2 garb2 st' I ser = Ok sig.
Proof.
  intros P NP HR EK ES. destruct (free_cases I kf r kp P NP HR EK) as (c & key & pt & ct & OK & -> & Hk & Hp & Hct). split.
  - intros fuel2 garb2 st2 Hf. apply (sign_accepted H I c (nk_of I) OK key pt ct Hk Hp Hct fuel garb st msg sig st' ES). exact Hf.
  - destruct (sign_transport H I c (nk_of I) OK key pt ct Hk Hp Hct fuel garb st msg sig st' ES) as (ser & A & L & B). exists ser. split; [exact A|]. split; [|exact B].
    rewrite L. unfold sig_size, proof_size. change SALT_SIZE with 32.
    rewrite ceil_log2_nat_spec; [lia|pose proof (n_pos I c _ OK); lia|]. apply (N.lt_trans _ 65536); [exact (io_N _ _ _ OK)|reflexivity].
Qed.
(** key generation does not look at the number of parties *)
Definition two (I : instance) : instance := mkInst (i_aes I) (digest_size I) (seed_size I) (num_rounds I) 2 (m1 I) (m2 I) (lambda I) (i_params I).
Lemma keygen_two kf I r : keygen kf I r = keygen kf (two I) r.
Proof.
  unfold keygen. change (i_aes (two I)) with (i_aes I). change (pt_size (two I)) with (pt_size I). generalize 0, (zeros (key_size (i_aes I))), (zeros (pt_size I)).
  induction kf as [|kf IH]; intros i key pt; [reflexivity|]. cbn [keygen_loop]. change (i_aes (two I)) with (i_aes I). change (pt_size (two I)) with (pt_size I).
  destruct (rand_bytes r i key); try reflexivity. cbn [bind]. destruct (rand_bytes r (i + 1) pt); try reflexivity. cbn [bind]. destruct (aes_plain _ _ _) as [[ct|]| | |]; try reflexivity. cbn [bind]. apply IH.
Qed.
Lemma two_proper I : proper I -> proper (two I).
Proof. intros P. constructor; cbn; try apply P. split; [lia|reflexivity]. Qed.
Lemma free_keygen I kf r kp : proper I -> rng_bytes r -> keygen kf I r = Ok kp ->
  exists key pt, fst kp = key /\ snd kp = pt ++ flat_map (cipher (nk_of I) key) (blocks (nk_of I) pt) /\
    length key = key_size (i_aes I) /\ length pt = block_size (i_aes I) * num_blocks (i_aes I) /\ ~ In 0%N (all_sbox_inputs (nk_of I) key (blocks (nk_of I) pt)).
Proof.
  intros P HR EK. rewrite keygen_two in EK. destruct (free_cases (two I) kf r kp (two_proper I P)) as (c & key & pt & ct & OK & -> & Hk & Hp & Hct); [exists 1; cbn; lia|exact HR|exact EK|].
  change (nk_of (two I)) with (nk_of I) in *. pose proof (inst_aes_in _ c _ _ _ OK Hk Hp) as Hin. exists key, pt. destruct (aes_pairs _ _ _ _ Hin Hct) as (s & t & E' & Es & _).
  destruct (records_some _ _ _ ct (aes_records _ _ _ Hin) ltac:(rewrite E'; reflexivity)) as (_ & -> & _).
  split; [reflexivity|]. split; [reflexivity|]. split; [apply Hk|]. split; [apply Hp|]. intros Hz. apply (aes_none _ _ _ Hin) in Hz. rewrite Hct in Hz. discriminate Hz.
Qed.
Lemma free_overrun H I kf r kp msg fuel garb st : proper I -> ~ near_power (num_parties I) -> 1 <= num_rounds I -> rng_bytes r -> keygen kf I r = Ok kp ->
  snd (sign H fuel garb st I kp msg) = UB OutOfBounds.
Proof.
  intros P NP HT HR EK. rewrite keygen_two in EK. destruct (free_cases (two I) kf r kp (two_proper I P)) as (c & key & pt & ct & OK & -> & Hk & Hp & Hct); [exists 1; cbn; lia|exact HR|exact EK|].
  pose proof (io_field _ _ _ OK) as Hc. change (lambda (two I)) with (lambda I) in Hc.
  unfold sign. rewrite (with_field_ok _ _ _ _ Hc). cbn [snd]. unfold sign_body. cbn [fst snd].
  destruct (valid_key _ c _ key pt ct OK Hk Hp Hct) as (s & t & KO).
  change (pt_size (two I)) with (pt_size I) in *. change (i_aes (two I)) with (i_aes I) in *. change (nk_of (two I)) with (nk_of I) in *.
  pose proof (read_pk (two I) c (nk_of I) OK key pt ct s t KO) as [R1 R2]. change (pt_size (two I)) with (pt_size I) in R1, R2. rewrite R1. cbn [bind]. rewrite R2. cbn [bind].
  pose proof (aes_out_ok (two I) c (nk_of I) OK key pt ct s t KO) as RA. change (i_aes (two I)) with (i_aes I) in RA. rewrite RA. cbn [bind fst snd].
  unfold generate_salt_and_seeds. cbv zeta. destruct (hash_squeeze H _ SALT_SIZE) as [sl cx]. destruct (num_rounds I) as [|T] eqn:ET; [lia|]. cbn [squeeze_seeds]. destruct (hash_squeeze H cx _) as [b cb] eqn:Es. destruct (squeeze_shape _ _ _ _ _ Es) as [Lb _]. cbn [seq mapM].
  change (get (?x :: ?l) 0) with (Ok x). cbn [bind].
  destruct (pr_parties _ P) as [H2 HN]. unfold sign_setup. rewrite (proj2 (first_ctor_iff H _ _ _ (num_parties I) ltac:(split; [exact H2|]; apply N.lt_le_incl, (N.lt_trans _ 65536); [exact HN|reflexivity]) ltac:(rewrite Lb; exact (pr_seed _ P)))); [reflexivity|].
  destruct (Nat.le_gt_cases (num_parties I) (2 ^ Nat.log2_up (num_parties I) - 16)) as [Q|Q]; [exact Q|]. exfalso. apply NP. apply near_log; [exact H2|exact Q].
Qed.
