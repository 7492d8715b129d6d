(** The theorems about keygen, sign and verify at the level of the API. *)
From Coq Require Import Arith NArith ZArith List Bool Lia.
From Verif Require Import Prelude FieldModel FieldApi Instances HashModel TreeModel AesSpec AesBase AesApi AesShares BanquetModel ListSum BanquetHash BanquetPure BanquetVerify BanquetSign Serialize BanquetApi History FreeSpec.
Import ListNotations.

Lemma key_cases I kf r kp : regular I -> rng_bytes r -> keygen kf I r = Ok kp ->
  exists c key pt ct, inst_ok I c (nk_of I) /\ kp = (key, pt ++ ct) /\ str (key_size (i_aes I)) key /\ str (pt_size I) pt /\ aes_n (nk_of I) key pt = Some ct.
Proof.
  intros HB HR E. destruct (regular_inst_ok I HB) as [c OK]. destruct (keygen_ok I c _ r kf kp OK HR E) as (key & pt & ct & A). exists c, key, pt, ct. auto.
Qed.
Lemma honest_verify H I kf r kp msg fuel garb st st' sig :
  regular I -> rng_bytes r -> keygen kf I r = Ok kp -> sign H fuel garb st I kp msg = (st', Ok sig) ->
  forall fuel2 garb2 st2, fuel <= fuel2 -> snd (verify H fuel2 garb2 st2 I (snd kp) sig msg) = Ok true.
Proof.
  intros HB HR EK ES fuel2 garb2 st2 Hf. destruct (key_cases I kf r kp HB HR EK) as (c & key & pt & ct & OK & -> & Hk & Hp & Hct).
  apply (sign_accepted H I c (nk_of I) OK key pt ct Hk Hp Hct fuel garb st msg sig st' ES). exact Hf.
Qed.
Lemma sign_returns H I c kf r kp msg fuel garb st :
  regular I -> init_extension_field (lambda I) = Ok c -> rng_bytes r -> keygen kf I r = Ok kp -> 1 <= fuel ->
  (exists sig, snd (sign H fuel garb st I kp msg) = Ok sig) \/
  (snd (sign H fuel garb st I kp msg) = OutOfFuel /\
   exists h2 k, forall i, i < fuel ->
     In (from_bytes (stream H (digest_size I =? 32) h2 ((k + i) * lambda I) (lambda I))) (get_first_n_field_elements c (m2 I))).
Proof.
  intros HB Hc HR EK Hf. destruct (key_cases I kf r kp HB HR EK) as (c' & key & pt & ct & OK & -> & Hk & Hp & Hct).
  assert (c' = c) by (pose proof (io_field _ _ _ OK) as X; rewrite Hc in X; injection X as <-; reflexivity). subst c'.
  destruct (sign_total H I c (nk_of I) OK key pt ct Hk Hp Hct fuel garb st msg) as [[E [[h2 E2]|[h3 E3]]]|E]; [right|exfalso|left; exact E].
  - split; [exact E|]. exists h2. exact (phase_2_stuck H I c _ fuel h2 OK E2).
  - exact (regular_phase3 H I fuel garb h3 HB Hf E3).
Qed.
Lemma keygen_consistent I kf r key pk : regular I -> rng_bytes r -> keygen kf I r = Ok (key, pk) ->
  exists pt, pk = pt ++ flat_map (cipher (nk_of I) key) (blocks (nk_of I) pt) /\
    length key = key_size (i_aes I) /\ length pt = block_size (i_aes I) * num_blocks (i_aes I) /\
    ~ In 0%N (all_sbox_inputs (nk_of I) key (blocks (nk_of I) pt)).
Proof.
  intros HB HR EK. destruct (key_cases I kf r _ HB HR EK) as (c & key' & pt & ct & OK & E & Hk & Hp & Hct). injection E as <- ->.
  pose proof (inst_aes_in I c _ _ _ OK Hk Hp) as Hin. exists pt. destruct (aes_pairs _ _ _ _ Hin Hct) as (s & t & E' & Es & _).
  destruct (records_some _ _ _ ct (aes_records _ _ _ Hin) ltac:(rewrite E'; reflexivity)) as (_ & -> & _).
  split; [reflexivity|]. split; [apply Hk|]. split; [apply Hp|]. intros Hz. apply (aes_none _ _ _ Hin) in Hz. rewrite Hct in Hz. discriminate Hz.
Qed.
Lemma sign_to_verify H I kf r kp msg fuel garb st st' sig :
  regular I -> rng_bytes r -> keygen kf I r = Ok kp -> sign H fuel garb st I kp msg = (st', Ok sig) ->
  exists ser, serialize st' I sig = Ok ser /\
  forall fuel2 garb2, fuel <= fuel2 -> exists sig', deserialize H fuel2 garb2 st' I ser = Ok sig' /\
    snd (verify H fuel2 garb2 st' I (snd kp) sig' msg) = Ok true.
Proof.
  intros HB HR EK ES. destruct (key_cases I kf r kp HB HR EK) as (c & key & pt & ct & OK & -> & Hk & Hp & Hct).
  destruct (sign_transport H I c (nk_of I) OK key pt ct Hk Hp Hct fuel garb st msg sig st' ES) as (ser & A & _ & B).
  exists ser. split; [exact A|]. intros fuel2 garb2 Hf. exists sig. split; [apply B; exact Hf|].
  apply (sign_accepted H I c (nk_of I) OK key pt ct Hk Hp Hct fuel garb st msg sig st' ES). exact Hf.
Qed.

(** *** determinism *)
Lemma bind_mono {A B} (x x' : res A) (f f' : A -> res B) b : (forall a, x = Ok a -> x' = Ok a) -> (forall a, f a = Ok b -> f' a = Ok b) ->
  bind x f = Ok b -> bind x' f' = Ok b.
Proof. intros Hx Hf. destruct x as [a| | |]; try discriminate. rewrite (Hx a eq_refl). apply Hf. Qed.
Lemma sample_R_mono H I c forb extra fuel : forall ctx x, sample_R H I c fuel forb ctx = Ok x -> sample_R H I c (fuel + extra) forb ctx = Ok x.
Proof.
  induction fuel as [|f IH]; intros ctx x; [discriminate|]. cbn [sample_R Nat.add]. destruct (hash_squeeze H ctx (lambda I)) as [b ctx'].
  apply bind_mono; [auto|]. intros y. apply bind_mono; [auto|]. intros fs. destruct (existsb (N.eqb y) fs); [apply IH|auto].
Qed.
Lemma sample_Rs_mono H I c forb fuel extra n : forall ctx x, sample_Rs H I c fuel forb n ctx = Ok x -> sample_Rs H I c (fuel + extra) forb n ctx = Ok x.
Proof.
  induction n; intros ctx x; [auto|]. cbn [sample_Rs]. apply bind_mono; [intros a; apply sample_R_mono|]. intros [y ctx']. apply bind_mono; [intros a; apply IHn|auto].
Qed.
Lemma sample_party_mono H I extra fuel : forall hi ctx x, sample_party H I fuel hi ctx = Ok x -> sample_party H I (fuel + extra) hi ctx = Ok x.
Proof.
  induction fuel as [|f IH]; intros hi ctx x; [discriminate|]. cbn [sample_party Nat.add]. destruct (hash_squeeze H ctx (squeeze_size I)) as [b ctx'].
  cbv zeta. destruct (_ <=? _)%N; [apply IH|auto].
Qed.
Lemma sample_parties_mono H I fuel extra garb n : forall e ctx x, sample_parties H I fuel garb e n ctx = Ok x -> sample_parties H I (fuel + extra) garb e n ctx = Ok x.
Proof.
  induction n; intros e ctx x; [auto|]. cbn [sample_parties]. apply bind_mono; [intros a; apply sample_party_mono|]. intros [y ctx']. apply bind_mono; [intros a; apply IHn|auto].
Qed.
Lemma phase_2_mono H I c fuel extra h2 forb x : phase_2_expand H I c fuel h2 forb = Ok x -> phase_2_expand H I c (fuel + extra) h2 forb = Ok x.
Proof. apply sample_Rs_mono. Qed.
Lemma phase_3_mono H I fuel extra garb garb' h3 x : 1 <= num_parties I -> phase_3_expand H I fuel garb h3 = Ok x -> phase_3_expand H I (fuel + extra) garb' h3 = Ok x.
Proof. intros HN E. rewrite (phase_3_garb H I HN _ garb' garb). unfold phase_3_expand in *. apply sample_parties_mono. exact E. Qed.
Lemma sign_body_mono H I c fuel extra garb garb' kp msg sig : 1 <= num_parties I ->
  sign_body H I c fuel garb kp msg = Ok sig -> sign_body H I c (fuel + extra) garb' kp msg = Ok sig.
Proof.
  intros HN. unfold sign_body. cbv zeta. destruct (generate_salt_and_seeds H I kp msg) as [salt seeds].
  repeat (apply bind_mono; [first [intros zz EE; exact EE | intros zz EE; apply phase_2_mono; exact EE
    | intros zz EE; apply (phase_3_mono _ _ _ _ garb); [exact HN|exact EE]]|intros ?]).
  intros E; exact E.
Qed.
Lemma sign_deterministic H h1 h2 fuel1 fuel2 garb1 garb2 I kp msg sig1 sig2 : 1 <= num_parties I ->
  snd (sign H fuel1 garb1 (after H h1) I kp msg) = Ok sig1 -> snd (sign H fuel2 garb2 (after H h2) I kp msg) = Ok sig2 -> sig1 = sig2.
Proof.
  intros HN. rewrite (sign_state H fuel2 garb2 (after H h2) (after H h1)). unfold sign.
  destruct (init_extension_field (lambda I)) as [c|e|u|] eqn:Ei.
  - rewrite !(with_field_ok _ _ _ _ Ei). cbn [snd]. intros E1 E2. apply (sign_body_mono _ _ _ _ fuel2 _ garb1 _ _ _ HN) in E1. apply (sign_body_mono _ _ _ _ fuel1 _ garb1 _ _ _ HN) in E2.
    rewrite Nat.add_comm in E2. rewrite E1 in E2. injection E2 as <-. reflexivity.
  - unfold with_field, st_init. rewrite Ei. destruct (after H h1); discriminate.
  - unfold with_field, st_init. rewrite Ei. destruct (after H h1); discriminate.
  - unfold with_field, st_init. rewrite Ei. destruct (after H h1); discriminate.
Qed.
Lemma sign_salt H fuel garb st I kp msg sig : snd (sign H fuel garb st I kp msg) = Ok sig ->
  s_salt sig = stream H (digest_size I =? 32) (le16 (i_params I) ++ fst kp ++ snd kp ++ msg) 0 32.
Proof.
  unfold sign. destruct (init_extension_field (lambda I)) as [c|e|u|] eqn:Ei; [|unfold with_field, st_init; rewrite Ei; destruct st; discriminate..].
  rewrite (with_field_ok _ _ _ _ Ei). cbn [snd]. unfold sign_body. cbv zeta. unfold generate_salt_and_seeds.
  assert (ES : hash_squeeze H (hash_final (hash_update (hash_update (hash_update (hash_update_u16 (hash_init (digest_size I)) (i_params I)) (fst kp)) (snd kp)) msg)) SALT_SIZE
    = (stream H (digest_size I =? 32) (le16 (i_params I) ++ fst kp ++ snd kp ++ msg) 0 32, mkCtx (digest_size I =? 32) (le16 (i_params I) ++ fst kp ++ snd kp ++ msg) (Some 32))).
  { unfold hash_squeeze, hash_final, hash_update_u16, hash_update, hash_init. cbn [h_v h_in h_off app]. rewrite <- !app_assoc. reflexivity. }
  rewrite ES. set (salt := stream H _ _ 0 32). intros E. 
  repeat (apply bind_ok in E; destruct E as (? & _ & E)). injection E as <-. reflexivity.
Qed.
