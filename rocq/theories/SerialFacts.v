(** Serialization at the level of the API, including the dependence on the static field state. *)
From Coq Require Import Arith NArith ZArith List Bool Lia.
From Verif Require Import Prelude FieldModel FieldApi FieldSpec FieldApi Instances HashModel TreeModel AesBase AesShares BanquetModel ContainerModel ListSum BanquetHash BanquetPure BanquetVerify BanquetCtx Serialize BanquetApi History SignFacts FreeSpec.
Import ListNotations.

Lemma inst_n1 I c nk : inst_ok I c nk -> 1 <= num_parties I.
Proof. intros OK. pose proof (n_pos I c nk OK). lia. Qed.
(** the process has just signed or verified with a parameter set of the same field *)
Lemma init_regular I : regular I -> exists c, init_extension_field (lambda I) = Ok c.
Proof. intros HB. destruct (regular_inst_ok I HB) as [c OK]. exists c. apply (io_field _ _ _ OK). Qed.

Lemma api_roundtrip H fuel garb I st sig : regular I -> st_init None (lambda I) = (st, Ok tt) -> sig_shape I sig ->
  phase_3_expand H I fuel garb (s_h3 sig) = Ok (map (fun p => snd (p_reveal p)) (s_proofs sig)) ->
  exists ser, serialize st I sig = Ok ser /\ deserialize H fuel garb st I ser = Ok sig.
Proof.
  intros HB Hst S M. destruct (regular_inst_ok I HB) as [c OK]. pose proof (io_field _ _ _ OK) as Hc. unfold st_init in Hst. rewrite Hc in Hst. injection Hst as <-.
  exists (enc_sig I sig). split; [apply (serialize_ok I c Hc sig S)|]. apply (roundtrip_sig I c Hc H fuel garb (inst_n1 _ _ _ OK)); assumption.
Qed.
Lemma api_length I st sig : regular I -> st_init None (lambda I) = (st, Ok tt) -> sig_shape I sig ->
  exists ser, serialize st I sig = Ok ser /\ length ser = sig_size I.
Proof.
  intros HB Hst S. destruct (regular_inst_ok I HB) as [c OK]. pose proof (io_field _ _ _ OK) as Hc. unfold st_init in Hst. rewrite Hc in Hst. injection Hst as <-.
  exists (enc_sig I sig). destruct (serialize_ok I c Hc sig S) as (A & B & _). auto.
Qed.
Lemma api_sign_length H I kf r kp msg fuel garb st st' sig : regular I -> rng_bytes r -> keygen kf I r = Ok kp -> sign H fuel garb st I kp msg = (st', Ok sig) ->
  exists ser, serialize st' I sig = Ok ser /\ length ser = sig_size I.
Proof.
  intros HB HR EK ES. destruct (key_cases I kf r kp HB HR EK) as (c & key & pt & ct & OK & -> & Hk & Hp & Hct).
  destruct (sign_transport H I c (nk_of I) OK key pt ct Hk Hp Hct fuel garb st msg sig st' ES) as (ser & A & B & _). exists ser. auto.
Qed.
Lemma phase_3_regular H I fuel garb h3 : regular I -> 1 <= fuel -> exists ms, phase_3_expand H I fuel garb h3 = Ok ms /\ length ms = num_rounds I.
Proof.
  intros HB Hf. destruct (regular_inst_ok I HB) as [c OK]. destruct (phase_3_outcome H I (inst_n1 _ _ _ OK) fuel garb h3) as [E|(ms & E & L & _)].
  - exfalso. exact (regular_phase3 H I fuel garb h3 HB Hf E).
  - exists ms. auto.
Qed.
Lemma api_canonical H fuel garb I st ser : regular I -> st_init None (lambda I) = (st, Ok tt) -> 1 <= fuel -> is_bytes ser -> length ser = sig_size I ->
  exists sig, deserialize H fuel garb st I ser = Ok sig /\ serialize st I sig = Ok ser.
Proof.
  intros HB Hst Hf B L. destruct (regular_inst_ok I HB) as [c OK]. pose proof (io_field _ _ _ OK) as Hc. unfold st_init in Hst. rewrite Hc in Hst. injection Hst as <-.
  destruct (phase_3_regular H I fuel garb (h3_of I ser) HB Hf) as (ms & EM & LM).
  destruct (deserialize_exact I c Hc H fuel garb ser ms B L EM LM) as (sig & A1 & _ & _ & A4). exists sig. auto.
Qed.
Lemma api_injective H fuel garb I st ser1 ser2 sig : regular I -> st_init None (lambda I) = (st, Ok tt) -> is_bytes ser1 -> is_bytes ser2 ->
  length ser1 = sig_size I -> length ser2 = sig_size I ->
  deserialize H fuel garb st I ser1 = Ok sig -> deserialize H fuel garb st I ser2 = Ok sig -> ser1 = ser2.
Proof.
  intros HB Hst B1 B2 L1 L2 E1 E2. destruct fuel as [|f].
  - destruct (regular_inst_ok I HB) as [c OK]. exfalso. revert E1. unfold deserialize, take, sig_size in *. rewrite read_ok by lia. cbn [bind]. rewrite read_ok by lia. cbn [bind].
    rewrite read_ok by lia. cbn [bind]. unfold phase_3_expand. assert (R : 1 <= num_rounds I).
    { exact (rg_rounds _ HB). }
    destruct (num_rounds I); [lia|]. cbn [sample_parties sample_party bind]. discriminate.
  - destruct (api_canonical H (S f) garb I st ser1 HB Hst ltac:(lia) B1 L1) as (s1 & A1 & C1). destruct (api_canonical H (S f) garb I st ser2 HB Hst ltac:(lia) B2 L2) as (s2 & A2 & C2).
    rewrite E1 in A1. rewrite E2 in A2. injection A1 as <-. injection A2 as <-. rewrite C1 in C2. injection C2 as <-. reflexivity.
Qed.
Lemma api_long H fuel garb I st ser extra : regular I -> st_init None (lambda I) = (st, Ok tt) -> is_bytes ser -> is_bytes extra -> length ser = sig_size I ->
  deserialize H fuel garb st I (ser ++ extra) = deserialize H fuel garb st I ser.
Proof.
  intros HB Hst B Be L. destruct (regular_inst_ok I HB) as [c OK]. pose proof (io_field _ _ _ OK) as Hc. unfold st_init in Hst. rewrite Hc in Hst. injection Hst as <-.
  rewrite (deserialize_long I c Hc H fuel garb (inst_n1 _ _ _ OK) (ser ++ extra)); [|apply is_bytes_app; assumption|rewrite app_length; lia].
  rewrite <- L, firstn_app, Nat.sub_diag, firstn_all. cbn [firstn]. rewrite app_nil_r. reflexivity.
Qed.
Lemma api_short H fuel garb I st ser : regular I -> st_init None (lambda I) = (st, Ok tt) -> 1 <= fuel -> is_bytes ser -> length ser < sig_size I ->
  deserialize H fuel garb st I ser = UB OutOfBounds.
Proof.
  intros HB Hst Hf B L. destruct (regular_inst_ok I HB) as [c OK]. pose proof (io_field _ _ _ OK) as Hc. unfold st_init in Hst. rewrite Hc in Hst. injection Hst as <-.
  destruct (deserialize_short I c Hc H fuel garb (inst_n1 _ _ _ OK) ser B L) as [E|E]; [exact E|]. exfalso. revert E. unfold deserialize.
  assert (T0 : forall k o, take ser k o <> OutOfFuel) by (intros k o; unfold take, read; destruct (_ <=? _); cbn [bind]; discriminate).
  pose proof (T0 SALT_SIZE 0) as X1. destruct (take ser SALT_SIZE 0) as [[x1 o1]| | |]; cbn [bind]; try discriminate; [|congruence].
  pose proof (T0 (digest_size I) o1) as X2. destruct (take ser (digest_size I) o1) as [[x2 o2]| | |]; cbn [bind]; try discriminate; [|congruence].
  pose proof (T0 (digest_size I) o2) as X3. destruct (take ser (digest_size I) o2) as [[x3 o3]| | |] eqn:E3; cbn [bind]; try discriminate; [|congruence]. clear X1 X2 X3.
  destruct (phase_3_regular H I fuel garb x3 HB Hf) as (ms & -> & LM). cbn [bind].
  assert (Q : forall o, take_proofs (Some c) I ser ms o <> OutOfFuel).
  { clear - T0.
    assert (T1 : forall o, take_elem (Some c) I ser o <> OutOfFuel).
    { intros o. unfold take_elem. pose proof (T0 (lambda I) o). destruct (take ser (lambda I) o) as [[b o']| | |]; cbn [bind]; try discriminate; [|congruence].
      unfold read. destruct (_ <=? _); cbn [bind]; discriminate. }
    assert (T2 : forall A (f : nat -> res (A * nat)), (forall o, f o <> OutOfFuel) -> forall n o, take_many f n o <> OutOfFuel).
    { intros A f Hf. induction n; intros o; cbn [take_many]; [discriminate|]. pose proof (Hf o). destruct (f o) as [[x o']| | |]; cbn [bind]; try discriminate; [|congruence].
      pose proof (IHn o'). destruct (take_many f n o') as [[xs o'']| | |]; cbn [bind]; try discriminate. congruence. }
    induction ms as [|m ms IH]; intros o; cbn [take_proofs]; [discriminate|].
    assert (T3 : take_proof (Some c) I ser m o <> OutOfFuel).
    { unfold take_proof.
      match goal with |- context [take_many ?f ?k ?o] => pose proof (T2 _ f (T0 _) k o) as X; destruct (take_many f k o) as [[? o1]| | |]; cbn [bind]; try discriminate; try congruence; clear X end.
      do 3 match goal with |- context [take ser ?k ?o] => pose proof (T0 k o) as X; destruct (take ser k o) as [[? ?]| | |]; cbn [bind]; try discriminate; try congruence; clear X end.
      match goal with |- context [take_many ?f ?k ?o] => pose proof (T2 _ f T1 k o) as X; destruct (take_many f k o) as [[? ?]| | |]; cbn [bind]; try discriminate; try congruence; clear X end.
      match goal with |- context [take_elem (Some c) I ser ?o] => pose proof (T1 o) as X; destruct (take_elem (Some c) I ser o) as [[? ?]| | |]; cbn [bind]; try discriminate; try congruence; clear X end.
      do 2 match goal with |- context [take_many ?f ?k ?o] => pose proof (T2 _ f T1 k o) as X; destruct (take_many f k o) as [[? ?]| | |]; cbn [bind]; try discriminate; try congruence; clear X end. }
    destruct (take_proof (Some c) I ser m o) as [[p o']| | |]; cbn [bind]; try discriminate; [|congruence].
    pose proof (IH o'). destruct (take_proofs (Some c) I ser ms o') as [[ps o'']| | |]; cbn [bind]; try discriminate. congruence. }
  specialize (Q o3). destruct (take_proofs (Some c) I ser ms o3) as [[ps o4]| | |]; cbn [bind]; try discriminate. congruence.
Qed.

(** *** other field states *)
(** a larger field: the second memcpy of from_bytes reads beyond the lambda-sized buffer *)
Lemma deserialize_larger H fuel garb I st ser : regular I -> 1 <= fuel -> lambda I < st_byte_size st -> is_bytes ser -> sig_size I <= length ser ->
  deserialize H fuel garb st I ser = UB OutOfBounds.
Proof.
  intros HB Hf Hb B L. unfold deserialize. unfold sig_size, proof_size in L.
  assert (R : 1 <= num_rounds I).
  { exact (rg_rounds _ HB). }
  destruct (num_rounds I) as [|T'] eqn:ET; [lia|]. cbn [Nat.mul] in L.
  unfold take at 1. rewrite read_ok by lia. cbn [bind]. unfold take at 1. rewrite read_ok by lia. cbn [bind]. unfold take at 1. rewrite read_ok by lia. cbn [bind].
  match goal with |- context [phase_3_expand H I fuel garb ?h] => destruct (phase_3_regular H I fuel garb h HB Hf) as (ms & -> & LM) end.
  rewrite ET in LM. destruct ms as [|m ms]; [discriminate LM|]. cbn [bind take_proofs]. unfold take_proof.
  destruct (pa_run _ _ _ _ (p_many _ _ _ _ (ceil_log2_nat (num_parties I)) (p_take (seed_size I))) ser (0 + SALT_SIZE + digest_size I + digest_size I) B ltac:(lia)) as (x & E1 & _).
  change (take_many (take ser (seed_size I)) (ceil_log2_nat (num_parties I)) (0 + SALT_SIZE + digest_size I + digest_size I) = Ok (x, 0 + SALT_SIZE + digest_size I + digest_size I + ceil_log2_nat (num_parties I) * seed_size I)) in E1. rewrite E1. cbn [bind]. unfold take at 1. rewrite read_ok by lia. cbn [bind]. unfold take at 1. rewrite read_ok by lia. cbn [bind]. unfold take at 1. rewrite read_ok by lia. cbn [bind].
  replace (m2 I + 1) with (S (m2 I)) in * by lia. cbn [take_many Nat.mul Nat.add] in *. unfold take_elem at 1. unfold take at 1. rewrite read_ok by lia. cbn [bind].
  unfold read. match goal with |- context [length (slice ser ?o ?k)] => rewrite (slice_length ser o k) by lia end.
  apply Nat.leb_gt in Hb. cbn [Nat.add]. rewrite Hb. reflexivity.
Qed.
(** no field: byte_size is 0, nothing is read and every field element is zero *)
Definition elements_zero (p : rep_proof) : Prop :=
  Forall (fun x => x = 0%N) (p_P_delta p) /\ p_P_at_R p = 0%N /\ Forall (fun x => x = 0%N) (p_S_at_R p) /\ Forall (fun x => x = 0%N) (p_T_at_R p).
Lemma take_elem_none I ser off : off + lambda I <= length ser -> take_elem None I ser off = Ok (0%N, off + lambda I).
Proof. intros L. unfold take_elem, take. rewrite read_ok by lia. cbn [bind st_byte_size]. rewrite read_ok by lia. reflexivity. Qed.
Lemma take_many_none I ser n : forall off, off + n * lambda I <= length ser -> take_many (take_elem None I ser) n off = Ok (repeat 0%N n, off + n * lambda I).
Proof.
  induction n; intros off L; [cbn; rewrite Nat.add_0_r; reflexivity|]. cbn [Nat.mul] in *. cbn [take_many]. rewrite take_elem_none by lia. cbn [bind].
  rewrite IHn by lia. cbn [bind repeat]. rewrite Nat.add_assoc. reflexivity.
Qed.
Lemma zeros_all n : Forall (fun x => x = 0%N) (repeat 0%N n).
Proof. apply Forall_forall. intros x Hx. apply repeat_spec in Hx. exact Hx. Qed.
Lemma take_proof_none I ser m off : is_bytes ser -> off + proof_size I <= length ser ->
  exists p, take_proof None I ser m off = Ok (p, off + proof_size I) /\ elements_zero p.
Proof.
  intros B L. unfold proof_size in *. unfold take_proof.
  destruct (pa_run _ _ _ _ (p_many _ _ _ _ (ceil_log2_nat (num_parties I)) (p_take (seed_size I))) ser off B ltac:(lia)) as (x & E1 & _).
  change (take_many (take ser (seed_size I)) (ceil_log2_nat (num_parties I)) off = Ok (x, off + ceil_log2_nat (num_parties I) * seed_size I)) in E1. rewrite E1. cbn [bind]. unfold take at 1. rewrite read_ok by lia. cbn [bind]. unfold take at 1. rewrite read_ok by lia. cbn [bind]. unfold take at 1. rewrite read_ok by lia. cbn [bind].
  rewrite take_many_none by lia. cbn [bind]. rewrite take_elem_none by lia. cbn [bind]. rewrite take_many_none by lia. cbn [bind]. rewrite take_many_none by lia. cbn [bind].
  eexists. split; [do 2 f_equal; lia|]. unfold elements_zero. cbn [p_P_delta p_P_at_R p_S_at_R p_T_at_R]. repeat split; apply zeros_all.
Qed.
Lemma take_proofs_none I ser ms : forall off, is_bytes ser -> off + length ms * proof_size I <= length ser ->
  exists ps, take_proofs None I ser ms off = Ok (ps, off + length ms * proof_size I) /\ length ps = length ms /\ Forall elements_zero ps.
Proof.
  induction ms as [|m ms IH]; intros off B L; cbn [take_proofs length Nat.mul] in *.
  - exists []. rewrite Nat.add_0_r. auto.
  - destruct (take_proof_none I ser m off B ltac:(lia)) as (p & -> & Hp). cbn [bind]. destruct (IH (off + proof_size I) B ltac:(lia)) as (ps & -> & Lp & Hps). cbn [bind].
    exists (p :: ps). rewrite Nat.add_assoc. split; [reflexivity|]. split; [cbn; congruence|constructor; assumption].
Qed.
Lemma deserialize_fresh H fuel garb I ser : regular I -> 1 <= fuel -> is_bytes ser -> length ser = sig_size I ->
  exists sig, deserialize H fuel garb None I ser = Ok sig /\ length (s_proofs sig) = num_rounds I /\ Forall elements_zero (s_proofs sig).
Proof.
  intros HB Hf B L. unfold deserialize. unfold sig_size in L.
  unfold take at 1. rewrite read_ok by lia. cbn [bind]. unfold take at 1. rewrite read_ok by lia. cbn [bind]. unfold take at 1. rewrite read_ok by lia. cbn [bind].
  match goal with |- context [phase_3_expand H I fuel garb ?h] => destruct (phase_3_regular H I fuel garb h HB Hf) as (ms & -> & LM) end. cbn [bind].
  destruct (take_proofs_none I ser ms (0 + SALT_SIZE + digest_size I + digest_size I) B) as (ps & -> & Lp & Hps); [rewrite LM; lia|]. cbn [bind].
  eexists. split; [reflexivity|]. cbn [s_proofs]. split; [congruence|exact Hps].
Qed.
(** two signatures of these kinds differ: a byte string without a zero byte *)
Lemma fresh_differs H fuel garb I st ser : regular I -> st_init None (lambda I) = (st, Ok tt) -> 1 <= fuel -> is_bytes ser -> length ser = sig_size I -> ~ In 0%N ser ->
  deserialize H fuel garb None I ser <> deserialize H fuel garb st I ser.
Proof.
  intros HB Hst Hf B L Hz E. destruct (deserialize_fresh H fuel garb I ser HB Hf B L) as (s0 & E0 & L0 & Z0).
  destruct (api_canonical H fuel garb I st ser HB Hst Hf B L) as (s1 & E1 & C1). rewrite E0, E1 in E. injection E as ->.
  destruct (regular_inst_ok I HB) as [c OK]. pose proof (io_field _ _ _ OK) as Hc. unfold st_init in Hst. rewrite Hc in Hst. injection Hst as <-.
  assert (R : 1 <= num_rounds I).
  { exact (rg_rounds _ HB). }
  destruct (phase_3_regular H I fuel garb (h3_of I ser) HB Hf) as (ms & EM & LM).
  destruct (deserialize_run I c Hc H fuel garb ser ms B ltac:(lia) EM LM) as (s2 & A1 & A2 & _ & _ & A5). rewrite E1 in A1. injection A1 as <-.
  rewrite <- L, firstn_all in A5. apply Hz. rewrite <- A5. unfold enc_sig. destruct (s_proofs s1) as [|p ps]; [cbn in L0; lia|]. inversion Z0 as [|? ? (_ & ZP & _) _]; subst.
  do 3 (apply in_or_app; right). cbn [map concat]. apply in_or_app; left. unfold enc_proof. do 5 (apply in_or_app; right). apply in_or_app; left. rewrite ZP.
  destruct (pr_lambda _ (rg_proper _ HB)) as [<-|[<-|[<-|[<-|[]]]]]; left; reflexivity.
Qed.
(** no field: to_bytes writes nothing and the field elements are missing from the output *)
Lemma serialize_fresh I sig : sig_shape I sig -> exists ser, serialize None I sig = Ok ser /\
  length ser + num_rounds I * ((m2 I + 1 + 1 + 2 * m1 I) * lambda I) = sig_size I.
Proof.
  intros [[S1 _] [S2 _] [S3 _] S4 S5]. unfold serialize.
  set (e0 := fun p : rep_proof => concat (fst (p_reveal p)) ++ p_C p ++ p_sk_delta p ++ p_t_delta p).
  assert (Q : forall p, proof_shape I p -> serialize_proof None I p = Ok (e0 p) /\ length (e0 p) + (m2 I + 1 + 1 + 2 * m1 I) * lambda I = proof_size I).
  { intros p [Q1 Q2 Q3 Q4 Q5 Q6 Q7 Q8 Q9]. split.
    - unfold serialize_proof. cbn [st_byte_size]. rewrite (mapM_get (p_P_delta p)) by apply Q6. cbn [bind]. rewrite (mapM_get (p_S_at_R p)) by apply Q8. cbn [bind].
      rewrite (mapM_get (p_T_at_R p)) by apply Q9. cbn [bind]. assert (C : forall l, concat (map (to_bytes 0) l) = []) by (induction l; [reflexivity|exact IHl]).
      rewrite !C. unfold to_bytes at 1. cbn [le_bytes app]. unfold e0. rewrite !app_nil_r. reflexivity.
    - unfold e0, proof_size. rewrite !app_length. rewrite (proj1 Q3), (proj1 Q4), (proj1 Q5).
      assert (C : length (concat (fst (p_reveal p))) = ceil_log2_nat (num_parties I) * seed_size I).
      { rewrite <- Q1. clear - Q2. induction (fst (p_reveal p)) as [|a l IH]; [reflexivity|]. cbn [concat length Nat.mul]. rewrite app_length, (proj1 (Q2 a (or_introl eq_refl))).
        f_equal. apply IH. intros v Hv. apply Q2. right. exact Hv. }
      lia. }
  assert (G : exists l, mapM (fun rep => do p <- get (s_proofs sig) rep; serialize_proof None I p) (seq 0 (num_rounds I)) = Ok l /\
     length (concat l) + num_rounds I * ((m2 I + 1 + 1 + 2 * m1 I) * lambda I) = num_rounds I * proof_size I).
  { set (d := mkProof ([], 0) [] [] [] [] 0%N [] []). exists (map (fun r => e0 (nth r (s_proofs sig) d)) (seq 0 (num_rounds I))).
    assert (Hd : forall r, r < num_rounds I -> proof_shape I (nth r (s_proofs sig) d)).
    { intros r Hr. rewrite Forall_forall in S5. apply S5. apply nth_In. rewrite S4. exact Hr. }
    split; [apply mapM_seq; intros r Hr; rewrite (get_ok (s_proofs sig) r d) by (rewrite S4; exact Hr); cbn [bind]; apply Q; apply Hd; exact Hr|].
    assert (X : forall k s, s + k <= num_rounds I -> length (concat (map (fun r => e0 (nth r (s_proofs sig) d)) (seq s k))) + k * ((m2 I + 1 + 1 + 2 * m1 I) * lambda I) = k * proof_size I).
    { induction k; intros s Hs; [reflexivity|]. cbn [seq map concat]. rewrite app_length. specialize (IHk (S s) ltac:(lia)). destruct (Q _ (Hd s ltac:(lia))) as [_ Z]. cbn [Nat.mul]. lia. }
    apply X. lia. }
  destruct G as (l & -> & Hl). cbn [bind]. eexists. split; [reflexivity|]. rewrite !app_length, S1, S2, S3. unfold sig_size. lia.
Qed.

(** the state after sign or verify *)
Lemma after_verify H h fuel garb I c pk sig msg : init_extension_field (lambda I) = Ok c -> after H (h ++ [CVerify fuel garb I pk sig msg]) = Some c.
Proof. intros Hc. unfold after. rewrite fold_left_app. cbn [fold_left step]. unfold verify. rewrite (with_field_ok _ _ _ _ Hc). reflexivity. Qed.
Lemma after_sign H h fuel garb I c kp msg : init_extension_field (lambda I) = Ok c -> after H (h ++ [CSign fuel garb I kp msg]) = Some c.
Proof. intros Hc. unfold after. rewrite fold_left_app. cbn [fold_left step]. unfold sign. rewrite (with_field_ok _ _ _ _ Hc). reflexivity. Qed.

(** *** the statements of PropSerial *)
Lemma sig_size_formula I : regular I -> sig_size I =
  32 + 2 * digest_size I + num_rounds I * (Nat.log2_up (num_parties I) * seed_size I + digest_size I + key_size (i_aes I) + num_sboxes (i_aes I) + (m2 I + 1 + 1 + 2 * m1 I) * lambda I).
Proof.
  intros HB. destruct (regular_inst_ok I HB) as [c OK]. pose proof (inst_n1 _ _ _ OK) as N1. unfold sig_size, proof_size. change SALT_SIZE with 32.
  rewrite (ceil_log2_nat_spec (num_parties I) N1); [lia|]. apply (N.lt_trans _ 65536); [exact (io_N _ _ _ OK)|reflexivity].
Qed.
Lemma api_length_formula I st sig : regular I -> st_init None (lambda I) = (st, Ok tt) -> sig_shape I sig ->
  exists ser, serialize st I sig = Ok ser /\ length ser =
    32 + 2 * digest_size I + num_rounds I * (Nat.log2_up (num_parties I) * seed_size I + digest_size I + key_size (i_aes I) + num_sboxes (i_aes I) + (m2 I + 1 + 1 + 2 * m1 I) * lambda I).
Proof. intros HB Hs S. rewrite <- (sig_size_formula I HB). apply api_length; assumption. Qed.
Lemma api_sign_length_formula H I kf r kp msg fuel garb st st' sig : regular I -> rng_bytes r -> keygen kf I r = Ok kp -> sign H fuel garb st I kp msg = (st', Ok sig) ->
  exists ser, serialize st' I sig = Ok ser /\ length ser =
    32 + 2 * digest_size I + num_rounds I * (Nat.log2_up (num_parties I) * seed_size I + digest_size I + key_size (i_aes I) + num_sboxes (i_aes I) + (m2 I + 1 + 1 + 2 * m1 I) * lambda I).
Proof. intros HB HR EK ES. rewrite <- (sig_size_formula I HB). exact (api_sign_length H I kf r kp msg fuel garb st st' sig HB HR EK ES). Qed.
Lemma is_bytes_firstn n l : is_bytes l -> is_bytes (firstn n l).
Proof. intros B. rewrite <- (firstn_skipn n l) in B. apply Forall_app in B. apply B. Qed.
Lemma is_bytes_skipn n l : is_bytes l -> is_bytes (skipn n l).
Proof. intros B. rewrite <- (firstn_skipn n l) in B. apply Forall_app in B. apply B. Qed.
Lemma api_any H fuel garb I st ser : regular I -> st_init None (lambda I) = (st, Ok tt) -> 1 <= fuel -> is_bytes ser ->
  (sig_size I <= length ser <-> exists sig, deserialize H fuel garb st I ser = Ok sig) /\
  (forall sig, deserialize H fuel garb st I ser = Ok sig -> serialize st I sig = Ok (firstn (sig_size I) ser)).
Proof.
  intros HB Hst Hf B. assert (S : length ser < sig_size I -> forall sig, deserialize H fuel garb st I ser <> Ok sig).
  { intros L sig. rewrite (api_short H fuel garb I st ser HB Hst Hf B L). discriminate. }
  assert (G : sig_size I <= length ser -> exists sig, deserialize H fuel garb st I ser = Ok sig /\ serialize st I sig = Ok (firstn (sig_size I) ser)).
  { intros L. destruct (api_canonical H fuel garb I st (firstn (sig_size I) ser) HB Hst Hf) as (sig & E1 & E2); [apply is_bytes_firstn; exact B|rewrite firstn_length; lia|].
    exists sig. split; [|exact E2]. rewrite <- E1, <- (firstn_skipn (sig_size I) ser) at 1. apply api_long; try assumption; [apply is_bytes_firstn; exact B|apply is_bytes_skipn; exact B|rewrite firstn_length; lia]. }
  split; [split|].
  - intros L. destruct (G L) as (sig & E & _). eauto.
  - intros (sig & E). destruct (le_lt_dec (sig_size I) (length ser)) as [L|L]; [exact L|]. exfalso. exact (S L sig E).
  - intros sig E. destruct (le_lt_dec (sig_size I) (length ser)) as [L|L]; [|exfalso; exact (S L sig E)]. destruct (G L) as (sig' & E' & Q). rewrite E in E'. injection E' as <-. exact Q.
Qed.
Lemma api_history_differs H fuel garb I ser h f g pk sig msg : regular I -> 1 <= fuel -> is_bytes ser -> length ser = sig_size I -> ~ In 0%N ser ->
  deserialize H fuel garb (after H []) I ser <> deserialize H fuel garb (after H (h ++ [CVerify f g I pk sig msg])) I ser.
Proof.
  intros HB Hf B L Z. destruct (init_regular I HB) as [c Hc]. rewrite (after_verify H h f g I c pk sig msg Hc).
  apply fresh_differs; try assumption. unfold st_init. rewrite Hc. reflexivity.
Qed.
Lemma api_larger H fuel garb I J ser h f g pk sig msg : regular I -> regular J -> lambda I < lambda J -> 1 <= fuel -> is_bytes ser -> length ser = sig_size I ->
  deserialize H fuel garb (after H (h ++ [CVerify f g J pk sig msg])) I ser = UB OutOfBounds.
Proof.
  intros HB HJ Hl Hf B L. destruct (init_regular J HJ) as [c Hc]. rewrite (after_verify H h f g J c pk sig msg Hc).
  apply deserialize_larger; try assumption; [|lia]. cbn [st_byte_size]. rewrite (api_size _ _ Hc). exact Hl.
Qed.
Lemma after_idle H h x more : (forall y, In y more -> match y with CSign _ _ _ _ _ | CVerify _ _ _ _ _ _ => False | _ => True end) ->
  after H (h ++ x :: more) = after H (h ++ [x]).
Proof.
  intros Hm. change (h ++ x :: more) with (h ++ [x] ++ more). rewrite app_assoc. unfold after. rewrite (fold_left_app _ (h ++ [x])). generalize (fold_left (step H) (h ++ [x]) None).
  induction more as [|y more IH]; intros s; [reflexivity|]. cbn [fold_left]. rewrite IH by (intros z Hz; apply Hm; right; exact Hz).
  pose proof (Hm y (or_introl eq_refl)) as Q. destruct y; try reflexivity; contradiction.
Qed.
Lemma api_same_field H h1 h2 last1 last2 more1 more2 I fuel garb ser sig : regular I ->
  (forall x, In x [last1; last2] -> exists J, lambda J = lambda I /\
     ((exists f g kp msg, x = CSign f g J kp msg) \/ (exists f g pk s msg, x = CVerify f g J pk s msg))) ->
  (forall x, In x (more1 ++ more2) -> match x with CSign _ _ _ _ _ | CVerify _ _ _ _ _ _ => False | _ => True end) ->
  let a := after H (h1 ++ last1 :: more1) in let b := after H (h2 ++ last2 :: more2) in
  deserialize H fuel garb a I ser = deserialize H fuel garb b I ser /\ serialize a I sig = serialize b I sig.
Proof.
  intros HB Hl Hm. destruct (init_regular I HB) as [c Hc]. cbv zeta.
  rewrite (after_idle H h1) by (intros x Hx; apply Hm; apply in_or_app; left; exact Hx). rewrite (after_idle H h2) by (intros x Hx; apply Hm; apply in_or_app; right; exact Hx).
  assert (Q : forall h x, In x [last1; last2] -> after H (h ++ [x]) = Some c).
  { intros h x Hx. destruct (Hl x Hx) as (J & EJ & [(f & g & kp & msg & ->)|(f & g & pk & s & msg & ->)]); rewrite <- EJ in Hc; [apply after_sign|apply after_verify]; exact Hc. }
  rewrite !Q by (cbn; auto). split; reflexivity.
Qed.
Lemma api_exists H fuel garb I st ser : regular I -> st_init None (lambda I) = (st, Ok tt) -> 1 <= fuel -> is_bytes ser -> length ser = sig_size I ->
  exists sig, sig_shape I sig /\ phase_3_expand H I fuel garb (s_h3 sig) = Ok (map (fun p => snd (p_reveal p)) (s_proofs sig)).
Proof.
  intros HB Hst Hf B L. destruct (regular_inst_ok I HB) as [c OK]. pose proof (io_field _ _ _ OK) as Hc.
  destruct (phase_3_regular H I fuel garb (h3_of I ser) HB Hf) as (ms & EM & LM).
  destruct (deserialize_run I c Hc H fuel garb ser ms B ltac:(lia) EM LM) as (sig & _ & A2 & A3 & A4 & _). exists sig. split; [exact A2|]. rewrite A3, A4. exact EM.
Qed.
