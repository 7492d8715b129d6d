(** Two runs of the same call that both end, end in the same way: [upto x y] says that y is what x becomes when the
    bound on the sampling loops is raised. *)
From Coq Require Import Arith NArith List Bool Lia.
From Verif Require Import Prelude FieldModel FieldApi Instances HashModel BanquetModel BanquetHash BanquetApi History.
Import ListNotations.

Definition upto {A} (x y : res A) : Prop := x = OutOfFuel \/ x = y.
Lemma upto_refl {A} (x : res A) : upto x x.
Proof. right; reflexivity. Qed.
Lemma upto_bind {A B} (x y : res A) (f g : A -> res B) : upto x y -> (forall a, upto (f a) (g a)) -> upto (bind x f) (bind y g).
Proof. intros [->| ->] Hf; [left; reflexivity|]. destruct y as [a| | |]; cbn [bind]; [apply Hf|apply upto_refl..]. Qed.
Lemma upto_eq {A} (x y z w : res A) : upto x z -> upto y w -> z = w -> x <> OutOfFuel -> y <> OutOfFuel -> x = y.
Proof. intros [->| ->] [->| ->] E N1 N2; try congruence. Qed.

Lemma sample_R_upto H I c forb extra fuel : forall ctx, upto (sample_R H I c fuel forb ctx) (sample_R H I c (fuel + extra) forb ctx).
Proof.
  induction fuel as [|f IH]; intros ctx; [left; reflexivity|]. cbn [sample_R Nat.add]. destruct (hash_squeeze H ctx (lambda I)) as [b ctx'].
  apply upto_bind; [apply upto_refl|]. intros y. apply upto_bind; [apply upto_refl|]. intros fs. destruct (existsb (N.eqb y) fs); [apply IH|apply upto_refl].
Qed.
Lemma sample_Rs_upto H I c forb fuel extra n : forall ctx, upto (sample_Rs H I c fuel forb n ctx) (sample_Rs H I c (fuel + extra) forb n ctx).
Proof.
  induction n; intros ctx; [apply upto_refl|]. cbn [sample_Rs]. apply upto_bind; [apply sample_R_upto|]. intros [y ctx']. apply upto_bind; [apply IHn|].
  intros xs. apply upto_refl.
Qed.
Lemma phase_2_upto H I c fuel extra h2 forb : upto (phase_2_expand H I c fuel h2 forb) (phase_2_expand H I c (fuel + extra) h2 forb).
Proof. apply sample_Rs_upto. Qed.
Lemma sample_party_upto H I extra fuel : forall hi ctx, upto (sample_party H I fuel hi ctx) (sample_party H I (fuel + extra) hi ctx).
Proof.
  induction fuel as [|f IH]; intros hi ctx; [left; reflexivity|]. cbn [sample_party Nat.add]. destruct (hash_squeeze H ctx (squeeze_size I)) as [b ctx'].
  cbv zeta. destruct (_ <=? _)%N; [apply IH|apply upto_refl].
Qed.
Lemma sample_parties_upto H I fuel extra garb n : forall e ctx, upto (sample_parties H I fuel garb e n ctx) (sample_parties H I (fuel + extra) garb e n ctx).
Proof.
  induction n; intros e ctx; [apply upto_refl|]. cbn [sample_parties]. apply upto_bind; [apply sample_party_upto|]. intros [y ctx'].
  apply upto_bind; [apply IHn|]. intros ps. apply upto_refl.
Qed.
Lemma sample_party_none H I : num_parties I = 0 -> forall fuel hi ctx, sample_party H I fuel hi ctx = OutOfFuel.
Proof.
  intros E. induction fuel as [|f IH]; intros hi ctx; [reflexivity|]. cbn [sample_party]. destruct (hash_squeeze H ctx (squeeze_size I)) as [b ctx'].
  cbv zeta. destruct (_ <=? _)%N eqn:X; [apply IH|]. apply N.leb_gt in X. lia.
Qed.
Lemma phase_3_any_garb H I fuel garb garb' h3 : phase_3_expand H I fuel garb h3 = phase_3_expand H I fuel garb' h3.
Proof.
  destruct (Nat.eq_dec (num_parties I) 0) as [E|E].
  - unfold phase_3_expand. destruct (num_rounds I); [reflexivity|]. cbn [sample_parties]. rewrite !sample_party_none by exact E. reflexivity.
  - apply phase_3_garb. lia.
Qed.
Lemma phase_3_upto H I fuel extra garb garb' h3 : upto (phase_3_expand H I fuel garb h3) (phase_3_expand H I (fuel + extra) garb' h3).
Proof. rewrite (phase_3_any_garb H I (fuel + extra) garb' garb). apply sample_parties_upto. Qed.

Lemma sign_body_upto H I c fuel extra garb garb' kp msg : upto (sign_body H I c fuel garb kp msg) (sign_body H I c (fuel + extra) garb' kp msg).
Proof.
  unfold sign_body. cbv zeta. destruct (generate_salt_and_seeds H I kp msg) as [salt seeds].
  repeat (apply upto_bind; [first [apply phase_2_upto|apply phase_3_upto|apply upto_refl]|intros ?]). apply upto_refl.
Qed.
Lemma verify_contexts_upto H I c fuel extra garb garb' pk sig msg :
  upto (verify_contexts H I c fuel garb pk sig msg) (verify_contexts H I c (fuel + extra) garb' pk sig msg).
Proof.
  unfold verify_contexts. cbv zeta.
  repeat (apply upto_bind; [first [apply phase_2_upto|apply phase_3_upto|apply upto_refl]|intros ?]). apply upto_refl.
Qed.
Lemma verify_body_upto H I c fuel extra garb garb' pk sig msg :
  upto (verify_body H I c fuel garb pk sig msg) (verify_body H I c (fuel + extra) garb' pk sig msg).
Proof. unfold verify_body. apply upto_bind; [apply verify_contexts_upto|]. intros x. apply upto_refl. Qed.

Lemma with_field_upto {A} st st' lam (f g : fctx -> res A) : (forall c, upto (f c) (g c)) -> upto (snd (with_field st lam f)) (snd (with_field st' lam g)).
Proof.
  intros Hf. unfold with_field, st_init. destruct (init_extension_field lam) as [c|e|u|]; cbn [snd]; [apply Hf|..]; destruct st, st'; apply upto_refl.
Qed.
Lemma sign_determined H st1 st2 fuel1 fuel2 garb1 garb2 I kp msg :
  snd (sign H fuel1 garb1 st1 I kp msg) <> OutOfFuel -> snd (sign H fuel2 garb2 st2 I kp msg) <> OutOfFuel ->
  snd (sign H fuel1 garb1 st1 I kp msg) = snd (sign H fuel2 garb2 st2 I kp msg).
Proof.
  apply (upto_eq _ _ (snd (sign H (fuel1 + fuel2) garb1 st1 I kp msg)) (snd (sign H (fuel2 + fuel1) garb1 st1 I kp msg))).
  - apply with_field_upto. intros c. apply sign_body_upto.
  - apply with_field_upto. intros c. apply sign_body_upto.
  - rewrite Nat.add_comm. reflexivity.
Qed.
Lemma verify_determined H st1 st2 fuel1 fuel2 garb1 garb2 I pk sig msg :
  snd (verify H fuel1 garb1 st1 I pk sig msg) <> OutOfFuel -> snd (verify H fuel2 garb2 st2 I pk sig msg) <> OutOfFuel ->
  snd (verify H fuel1 garb1 st1 I pk sig msg) = snd (verify H fuel2 garb2 st2 I pk sig msg).
Proof.
  apply (upto_eq _ _ (snd (verify H (fuel1 + fuel2) garb1 st1 I pk sig msg)) (snd (verify H (fuel2 + fuel1) garb1 st1 I pk sig msg))).
  - apply with_field_upto. intros c. apply verify_body_upto.
  - apply with_field_upto. intros c. apply verify_body_upto.
  - rewrite Nat.add_comm. reflexivity.
Qed.

Lemma take_many_ext {A} (f g : nat -> res (A * nat)) : (forall o, f o = g o) -> forall n o, take_many f n o = take_many g n o.
Proof. intros E. induction n; intros o; [reflexivity|]. cbn [take_many]. rewrite E. destruct (g o) as [[x o']| | |]; cbn [bind]; [|reflexivity..]. rewrite IHn. reflexivity. Qed.
Lemma take_elem_width st st' I ser : st_byte_size st = st_byte_size st' -> forall o, take_elem st I ser o = take_elem st' I ser o.
Proof. intros E o. unfold take_elem. rewrite E. reflexivity. Qed.
Lemma bind_ext {A B} (x : res A) (f g : A -> res B) : (forall a, f a = g a) -> bind x f = bind x g.
Proof. intros E. destruct x; cbn [bind]; [apply E|reflexivity..]. Qed.
Lemma take_proof_width st st' I ser m o : st_byte_size st = st_byte_size st' -> take_proof st I ser m o = take_proof st' I ser m o.
Proof.
  intros E. unfold take_proof. repeat (apply bind_ext; intros [? ?]).
  rewrite (take_many_ext _ _ (take_elem_width _ _ I ser E) (m2 I + 1)). apply bind_ext. intros [? ?].
  rewrite (take_elem_width _ _ I ser E). apply bind_ext. intros [? ?].
  rewrite (take_many_ext _ _ (take_elem_width _ _ I ser E) (m1 I)). apply bind_ext. intros [? ?].
  rewrite (take_many_ext _ _ (take_elem_width _ _ I ser E) (m1 I)). reflexivity.
Qed.
Lemma take_proofs_width st st' I ser : st_byte_size st = st_byte_size st' -> forall ms o, take_proofs st I ser ms o = take_proofs st' I ser ms o.
Proof.
  intros E. induction ms as [|m ms IH]; intros o; [reflexivity|]. cbn [take_proofs]. rewrite (take_proof_width _ _ _ _ _ _ E).
  apply bind_ext. intros [p o']. rewrite IH. reflexivity.
Qed.
Lemma deserialize_upto H st st' fuel extra garb garb' I ser : st_byte_size st = st_byte_size st' ->
  upto (deserialize H fuel garb st I ser) (deserialize H (fuel + extra) garb' st' I ser).
Proof.
  intros E. unfold deserialize. apply upto_bind; [apply upto_refl|]. intros [s1 o1]. apply upto_bind; [apply upto_refl|]. intros [s2 o2].
  apply upto_bind; [apply upto_refl|]. intros [s3 o3]. apply upto_bind; [apply phase_3_upto|]. intros ms. rewrite (take_proofs_width _ _ _ _ E). apply upto_refl.
Qed.
Lemma deserialize_determined H st1 st2 fuel1 fuel2 garb1 garb2 I ser : st_byte_size st1 = st_byte_size st2 ->
  deserialize H fuel1 garb1 st1 I ser <> OutOfFuel -> deserialize H fuel2 garb2 st2 I ser <> OutOfFuel ->
  deserialize H fuel1 garb1 st1 I ser = deserialize H fuel2 garb2 st2 I ser.
Proof.
  intros E. apply (upto_eq _ _ (deserialize H (fuel1 + fuel2) garb1 st1 I ser) (deserialize H (fuel2 + fuel1) garb1 st1 I ser)).
  - apply deserialize_upto. reflexivity.
  - apply deserialize_upto. symmetry. exact E.
  - rewrite Nat.add_comm. reflexivity.
Qed.
Lemma keygen_loop_upto I (r : rng) extra fuel : forall i key pt, upto (keygen_loop fuel I r i key pt) (keygen_loop (fuel + extra) I r i key pt).
Proof.
  induction fuel as [|f IH]; intros i key pt; [left; reflexivity|]. cbn [keygen_loop Nat.add].
  repeat first [apply upto_refl|apply IH|apply upto_bind; [apply upto_refl|intros ?]|match goal with |- context [match ?x with _ => _ end] => destruct x end].
Qed.
Lemma keygen_determined I (r : rng) fuel1 fuel2 : keygen fuel1 I r <> OutOfFuel -> keygen fuel2 I r <> OutOfFuel -> keygen fuel1 I r = keygen fuel2 I r.
Proof.
  apply (upto_eq _ _ (keygen (fuel1 + fuel2) I r) (keygen (fuel2 + fuel1) I r)); [apply keygen_loop_upto..|]. rewrite Nat.add_comm. reflexivity.
Qed.
