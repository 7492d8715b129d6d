(** Lemmas for PropCross: what is hashed for h_3 has a length that tells the parameter sets of a level apart (C74). *)
From Coq Require Import Arith NArith ZArith List Bool Lia.
From Verif Require Import Prelude FieldModel FieldSpec FieldApi Instances HashModel BanquetModel Serialize BanquetApi SerialFacts SignFacts SigSpec AcceptFacts VerifyCases FreeSpec PropSign AesShares KeygenBad.
Import ListNotations.

(** the bytes of all views: per repetition P(R), the parties' shares of it, and for each j the values of S_j and T_j at R and the shares *)
Definition views_size (I : instance) : nat :=
  num_rounds I * (lambda I * (1 + num_parties I + m1 I * (2 + 2 * num_parties I))).

Lemma tb_len k x : length (to_bytes k x) = k.
Proof. apply le_bytes_length. Qed.
Lemma h3_len I salt h2 pf X : length (h3_input I salt h2 pf X) = 1 + length salt + length h2 + views_size I.
Proof.
  unfold h3_input. rewrite !app_length. cbn [length]. unfold views_size.
  rewrite (concat_len _ (lambda I * (1 + num_parties I + m1 I * (2 + 2 * num_parties I)))); [lia|]. intros e _. rewrite !app_length, tb_len.
  rewrite (concat_len (fun p => to_bytes (lambda I) (x_P (X e) p)) (lambda I)) by (intros; apply tb_len).
  rewrite (concat_len _ (lambda I * (2 + 2 * num_parties I))); [nia|]. intros j _. rewrite !app_length, !tb_len.
  rewrite (concat_len _ (lambda I + lambda I)) by (intros; rewrite app_length, !tb_len; reflexivity). nia.
Qed.

Lemma cross H I I' c c' : regular I -> regular I' -> init_extension_field (lambda I) = Ok c -> init_extension_field (lambda I') = Ok c' ->
  views_size I <> views_size I' ->
  forall fuel fuel' garb garb' st st' pk pk' msg msg' sig sig',
  sig_shape I sig -> sig_shape I' sig' -> str (2 * pt_size I) pk -> str (2 * pt_size I') pk' -> 1 <= fuel -> 1 <= fuel' -> s_h3 sig = s_h3 sig' ->
  snd (verify H fuel garb st I pk sig msg) = Ok true -> snd (verify H fuel' garb' st' I' pk' sig' msg') = Ok true ->
  (exists X, is_transcript H I c pk sig X) /\ (exists X, is_transcript H I' c' pk' sig' X) /\
  forall X X', is_transcript H I c pk sig X -> is_transcript H I' c' pk' sig' X' ->
  collides (digest H I) (h3_input I (s_salt sig) (h2_of H I sig) (pf_of sig) X) (h3_input I' (s_salt sig') (h2_of H I' sig') (pf_of sig') X').
Proof.
  intros HB HB' Hc Hc' NV fuel fuel' garb garb' st st' pk pk' msg msg' sig sig' SS SS' Hpk Hpk' Hf Hf' E3 E E'.
  destruct (acceptance H I c HB Hc fuel garb st pk sig msg true SS Hpk Hf E) as [A B]. destruct (acceptance H I' c' HB' Hc' fuel' garb' st' pk' sig' msg' true SS' Hpk' Hf' E') as [A' B'].
  assert (D : digest_size I = digest_size I'). { rewrite <- (proj1 (ss_h3 _ _ SS)), <- (proj1 (ss_h3 _ _ SS')), E3. reflexivity. }
  split; [exact A|]. split; [exact A'|]. intros X X' TR TR'. split.
  - intros Q. apply (f_equal (@length N)) in Q. rewrite !h3_len in Q. rewrite (proj1 (ss_salt _ _ SS)), (proj1 (ss_salt _ _ SS')) in Q.
    unfold h2_of, digest in Q. rewrite !stream_length, D in Q. apply NV. lia.
  - rewrite (ac_h3 _ _ _ _ _ _ _ (proj1 (B X TR) eq_refl)), E3. unfold digest at 1. rewrite D. symmetry. exact (ac_h3 _ _ _ _ _ _ _ (proj1 (B' X' TR') eq_refl)).
Qed.

(** in the table *)
Definition viewsN (A : instance) : N :=
  (N.of_nat (num_rounds A) * (N.of_nat (lambda A) * (N.of_nat 1 + N.of_nat (num_parties A) + N.of_nat (m1 A) * (N.of_nat 2 + N.of_nat 2 * N.of_nat (num_parties A)))))%N.
Lemma viewsN_ok A : viewsN A = N.of_nat (views_size A).
Proof. unfold viewsN, views_size. rewrite !Nat2N.inj_mul, !Nat2N.inj_add, !Nat2N.inj_mul, !Nat2N.inj_add, !Nat2N.inj_mul. reflexivity. Qed.
Definition tableb : bool :=
  forallb (fun p => forallb (fun q => (p =? q) ||
    match banquet_instance_get (Z.of_nat p), banquet_instance_get (Z.of_nat q) with
    | Ok A, Ok B => negb (digest_size A =? digest_size B) || negb (N.eqb (viewsN A) (viewsN B))
    | _, _ => true end) (seq 0 25)) (seq 0 25).
Lemma table_ok : tableb = true.
Proof. vm_compute. reflexivity. Qed.
Lemma builtin_num I : builtin I -> exists p, p < 25 /\ banquet_instance_get (Z.of_nat p) = Ok I.
Proof.
  intros [p E]. assert (P : (0 < p < 24)%Z).
  { unfold banquet_instance_get, PARAMETER_SET_INVALID, PARAMETER_SET_MAX_INDEX in E. destruct (p <=? 0)%Z eqn:A; [discriminate E|]. destruct (24 <=? p)%Z eqn:B; [discriminate E|]. apply Z.leb_gt in A, B. lia. }
  exists (Z.to_nat p). split; [lia|]. rewrite Z2Nat.id by lia. exact E.
Qed.
Lemma sizes_differ I I' : builtin I -> builtin I' -> I <> I' -> digest_size I = digest_size I' -> views_size I <> views_size I'.
Proof.
  intros HB HB' Ne D Q. destruct (builtin_num I HB) as (p & Hp & Ep). destruct (builtin_num I' HB') as (q & Hq & Eq). pose proof table_ok as T. unfold tableb in T.
  rewrite forallb_forall in T. specialize (T p ltac:(apply in_seq; lia)). rewrite forallb_forall in T. specialize (T q ltac:(apply in_seq; lia)). rewrite Ep, Eq in T.
  apply orb_prop in T. destruct T as [T|T]; [apply Nat.eqb_eq in T; subst q; congruence|]. apply orb_prop in T. destruct T as [T|T].
  - apply negb_true_iff, Nat.eqb_neq in T. exact (T D).
  - apply negb_true_iff, N.eqb_neq in T. apply T. rewrite !viewsN_ok, Q. reflexivity.
Qed.

Lemma shared_digest I I' sig sig' : sig_shape I sig -> sig_shape I' sig' -> s_h3 sig = s_h3 sig' -> digest_size I = digest_size I'.
Proof. intros SS SS' E3. rewrite <- (proj1 (ss_h3 _ _ SS)), <- (proj1 (ss_h3 _ _ SS')), E3. reflexivity. Qed.

(** deserializing one byte string under two parameter sets of a level *)
Lemma des_h3 H fuel garb I c ser sig : regular I -> init_extension_field (lambda I) = Ok c -> is_bytes ser -> 1 <= fuel ->
  deserialize H fuel garb (Some c) I ser = Ok sig -> sig_shape I sig /\ s_h3 sig = slice ser (32 + digest_size I) (digest_size I).
Proof.
  intros HB Hc B Hf E. assert (Hst : st_init None (lambda I) = (Some c, Ok tt)) by (unfold st_init; rewrite Hc; reflexivity).
  destruct (api_any H fuel garb I (Some c) ser HB Hst Hf B) as [A _]. destruct (regular_pow2 I HB) as (k0 & HP & Hk8). pose proof (ChallengeFacts.party_challenges_pow2 H I k0 fuel garb) as PC.
  destruct (deserialize_run I c Hc H fuel garb ser (map (fun e => N.to_nat (H (digest_size I =? 32)%nat (h3_of I ser) e mod 256 mod N.of_nat (num_parties I))%N) (seq 0 (num_rounds I))) B) as (sig' & E1 & SS & EM & E3 & _).
  { apply A. exists sig. exact E. }
  { apply PC; assumption. }
  { rewrite map_length, seq_length. reflexivity. }
  rewrite E in E1. injection E1 as <-. split; [exact SS|exact E3].
Qed.

(** the number of the parameter set *)
Definition with_number (I : instance) (k : nat) : instance :=
  mkInst (i_aes I) (digest_size I) (seed_size I) (num_rounds I) (num_parties I) (m1 I) (m2 I) (lambda I) k.
Lemma number_proofs st I k ser ms : forall off, take_proofs st (with_number I k) ser ms off = take_proofs st I ser ms off.
Proof.
  induction ms as [|m ms IH]; intros off; [reflexivity|]. cbn [take_proofs]. change (take_proof st (with_number I k) ser m off) with (take_proof st I ser m off).
  destruct (take_proof st I ser m off) as [[p o]| | |]; cbn [bind]; [|reflexivity..]. rewrite IH. reflexivity.
Qed.
Lemma number_free H fuel garb st I k pk sig msg ser :
  verify H fuel garb st (with_number I k) pk sig msg = verify H fuel garb st I pk sig msg /\
  deserialize H fuel garb st (with_number I k) ser = deserialize H fuel garb st I ser /\ serialize st (with_number I k) sig = serialize st I sig.
Proof.
  split; [destruct I; reflexivity|]. split; [|destruct I; reflexivity]. unfold deserialize.
  change (digest_size (with_number I k)) with (digest_size I). destruct (take ser SALT_SIZE 0) as [[a o1]| | |]; cbn [bind]; [|reflexivity..].
  destruct (take ser (digest_size I) o1) as [[b o2]| | |]; cbn [bind]; [|reflexivity..]. destruct (take ser (digest_size I) o2) as [[d o3]| | |]; cbn [bind]; [|reflexivity..].
  change (phase_3_expand H (with_number I k) fuel garb d) with (phase_3_expand H I fuel garb d). destruct (phase_3_expand H I fuel garb d) as [ms| | |]; cbn [bind]; [|reflexivity..].
  rewrite number_proofs. reflexivity.
Qed.
