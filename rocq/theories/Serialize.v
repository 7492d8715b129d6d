(** Serialization and deserialization of signatures: fixed length, round trips, short and long inputs. *)
From Coq Require Import Arith NArith List Bool Lia.
From Verif Require Import Prelude FieldModel FieldSpec FieldApi Instances HashModel TreeModel AesBase AesShares BanquetModel ContainerModel ListSum BanquetHash BanquetPure BanquetVerify BanquetCtx.
Import ListNotations.

Lemma slice_app_split (l : bytes) o a b : slice l o (a + b) = slice l o a ++ slice l (o + a) b.
Proof.
  unfold slice. assert (G : forall (m : bytes) a b, firstn (a + b) m = firstn a m ++ firstn b (skipn a m)).
  { intros m. induction m; intros x y; [rewrite !firstn_nil, skipn_nil, firstn_nil; reflexivity|]. destruct x; [reflexivity|]. cbn. f_equal. apply IHm. }
  rewrite G. f_equal. f_equal. revert l. clear. induction o; intros l; [reflexivity|]. destruct l; [rewrite skipn_nil; reflexivity|]. cbn. apply IHo.
Qed.
Lemma app_split (a b x y : bytes) : length a = length x -> a ++ b = x ++ y -> a = x /\ b = y.
Proof. revert x. induction a; intros [|z x] L E; try discriminate L; [auto|]. cbn in *. injection E as -> E. injection L as L. destruct (IHa x L E) as [-> ->]. auto. Qed.

(** a reader of w bytes at an offset, the inverse of an encoder on the good values *)
Record parser {A} (f : bytes -> nat -> res (A * nat)) (w : nat) (enc : A -> bytes) (good : A -> Prop) : Prop := mkParser {
  pa_run : forall ser off, is_bytes ser -> off + w <= length ser -> exists x, f ser off = Ok (x, off + w) /\ good x /\ enc x = slice ser off w;
  pa_short : forall ser off, off <= length ser -> length ser < off + w -> is_bytes ser -> f ser off = UB OutOfBounds;
  pa_len : forall x, good x -> length (enc x) = w;
  pa_bytes : forall x, good x -> is_bytes (enc x);
  pa_inj : forall x y, good x -> good y -> enc x = enc y -> x = y }.

Lemma p_take w : parser (fun ser off => take ser w off) w (fun x => x) (str w).
Proof.
  constructor.
  - intros ser off B L. unfold take. rewrite read_ok by exact L. cbn [bind]. eexists. split; [reflexivity|]. split; [|reflexivity].
    split; [apply slice_length; exact L|apply is_bytes_slice; exact B].
  - intros ser off L1 L2 _. unfold take, read. apply Nat.leb_gt in L2. rewrite L2. reflexivity.
  - intros x [L _]. exact L.
  - intros x [_ B]. exact B.
  - auto.
Qed.
Lemma p_seq {A B} f g wa wb ea eb ga gb : @parser A f wa ea ga -> @parser B g wb eb gb ->
  parser (fun ser off => do (x, off) <- f ser off; do (y, off) <- g ser off; Ok ((x, y), off)) (wa + wb) (fun p => ea (fst p) ++ eb (snd p))
    (fun p => ga (fst p) /\ gb (snd p)).
Proof.
  intros PA PB. constructor.
  - intros ser off Bs L. destruct (pa_run _ _ _ _ PA ser off Bs ltac:(lia)) as (x & -> & Gx & Ex). cbn [bind].
    destruct (pa_run _ _ _ _ PB ser (off + wa) Bs ltac:(lia)) as (y & -> & Gy & Ey). cbn [bind]. exists (x, y). rewrite Nat.add_assoc. split; [reflexivity|].
    cbn [fst snd]. split; [auto|]. rewrite Ex, Ey. symmetry. apply slice_app_split.
  - intros ser off L1 L2 Bs. destruct (le_lt_dec (off + wa) (length ser)) as [L|L].
    + destruct (pa_run _ _ _ _ PA ser off Bs L) as (x & -> & Gx & Ex). cbn [bind]. rewrite (pa_short _ _ _ _ PB); auto. lia.
    + rewrite (pa_short _ _ _ _ PA); auto.
  - intros [x y] [Gx Gy]. cbn [fst snd]. rewrite app_length, (pa_len _ _ _ _ PA), (pa_len _ _ _ _ PB) by assumption. reflexivity.
  - intros [x y] [Gx Gy]. apply is_bytes_app; [apply (pa_bytes _ _ _ _ PA); assumption|apply (pa_bytes _ _ _ _ PB); assumption].
  - intros [x y] [x' y'] [Gx Gy] [Gx' Gy'] E. cbn [fst snd] in *. apply app_split in E; [|rewrite !(pa_len _ _ _ _ PA) by assumption; reflexivity].
    destruct E as [E1 E2]. f_equal; [apply (pa_inj _ _ _ _ PA)|apply (pa_inj _ _ _ _ PB)]; assumption.
Qed.
Lemma p_many {A} f w e g n : @parser A f w e g ->
  parser (fun ser off => take_many (f ser) n off) (n * w) (fun l => concat (map e l)) (fun l => length l = n /\ Forall g l).
Proof.
  intros P. induction n as [|n IH].
  - constructor.
    + intros ser off _ _. exists []. cbn [take_many Nat.mul]. rewrite Nat.add_0_r. auto.
    + intros; cbn in *; lia.
    + intros [|] [L _]; [reflexivity|discriminate L].
    + intros [|] [L _]; [constructor|discriminate L].
    + intros [|] [|] [L _] [L' _] _; try discriminate; reflexivity.
  - constructor.
    + intros ser off B L. cbn [Nat.mul] in *. cbn [take_many]. destruct (pa_run _ _ _ _ P ser off B ltac:(lia)) as (x & -> & Gx & Ex). cbn [bind].
      destruct (pa_run _ _ _ _ IH ser (off + w) B ltac:(lia)) as (xs & -> & [Lx Gs] & Es). cbn [bind]. exists (x :: xs). rewrite Nat.add_assoc. split; [reflexivity|].
      split; [split; [cbn; congruence|constructor; assumption]|]. cbn [map concat]. rewrite Ex, Es. symmetry. apply slice_app_split.
    + intros ser off L1 L2 Bs. cbn [Nat.mul] in *. cbn [take_many]. destruct (le_lt_dec (off + w) (length ser)) as [L|L].
      * destruct (pa_run _ _ _ _ P ser off Bs L) as (x & -> & Gx & Ex). cbn [bind]. rewrite (pa_short _ _ _ _ IH); auto. lia.
      * rewrite (pa_short _ _ _ _ P); auto.
    + intros [|x xs] [L G]; [discriminate L|]. injection L as L. inversion G; subst. cbn [map concat Nat.mul]. rewrite app_length, (pa_len _ _ _ _ P) by assumption.
      f_equal. apply (pa_len _ _ _ _ IH). auto.
    + intros [|x xs] [L G]; [discriminate L|]. injection L as L. inversion G; subst. cbn [map concat]. apply is_bytes_app; [apply (pa_bytes _ _ _ _ P); assumption|].
      apply (pa_bytes _ _ _ _ IH). auto.
    + intros [|x xs] [|y ys] [L G] [L' G'] E; try discriminate. injection L as L. injection L' as L'. inversion G; subst. inversion G'; subst. cbn [map concat] in E.
      apply app_split in E; [|rewrite !(pa_len _ _ _ _ P) by assumption; reflexivity]. destruct E as [E1 E2]. f_equal; [apply (pa_inj _ _ _ _ P); assumption|].
      apply (pa_inj _ _ _ _ IH); auto.
Qed.

(** the encoding of a repetition and the prescribed lengths *)
Definition proof_size (I : instance) : nat :=
  ceil_log2_nat (num_parties I) * seed_size I + digest_size I + key_size (i_aes I) + num_sboxes (i_aes I) + (m2 I + 1 + 1 + 2 * m1 I) * lambda I.
Definition sig_size (I : instance) : nat := SALT_SIZE + 2 * digest_size I + num_rounds I * proof_size I.
(** a signature whose components have the sizes the instance prescribes *)
Record sig_shape (I : instance) (sig : signature) : Prop := mkSigShape {
  ss_salt : str SALT_SIZE (s_salt sig); ss_h1 : str (digest_size I) (s_h1 sig); ss_h3 : str (digest_size I) (s_h3 sig);
  ss_len : length (s_proofs sig) = num_rounds I; ss_proofs : Forall (proof_shape I) (s_proofs sig) }.

Section Ser.
Variables (I : instance) (c : fctx).
Hypothesis HI : init_extension_field (lambda I) = Ok c.
Notation lam := (lambda I).
Notation E := (elt lam).

Lemma p_elem : parser (fun ser off => take_elem (Some c) I ser off) lam (to_bytes lam) E.
Proof.
  destruct (api_bytes _ _ HI) as [A1 A2]. constructor.
  - intros ser off B L. unfold take_elem. destruct (pa_run _ _ _ _ (p_take lam) ser off B L) as (x & -> & [Lx Bx] & Ex). cbn [bind st_byte_size].
    rewrite (api_size _ _ HI), read_all by exact Lx. cbn [bind]. destruct (A2 x Bx Lx) as [G1 G2]. eexists. split; [reflexivity|]. split; [exact G1|]. rewrite G2. exact Ex.
  - intros ser off L1 L2 B. unfold take_elem. rewrite (pa_short _ _ _ _ (p_take lam) ser off L1 L2 B). reflexivity.
  - intros x Hx. apply A1. exact Hx.
  - intros x Hx. apply A1. exact Hx.
  - intros x y Hx Hy Exy. rewrite <- (proj2 (proj2 (A1 x Hx))), Exy. apply A1. exact Hy.
Qed.

Definition enc_proof (p : rep_proof) : bytes :=
  concat (fst (p_reveal p)) ++ p_C p ++ p_sk_delta p ++ p_t_delta p ++ concat (map (to_bytes lam) (p_P_delta p)) ++ to_bytes lam (p_P_at_R p) ++
  concat (map (to_bytes lam) (p_S_at_R p)) ++ concat (map (to_bytes lam) (p_T_at_R p)).
Lemma mapM_get {A B} (l : list A) (f : A -> B) n : length l = n -> mapM (fun k => do x <- get l k; Ok (f x)) (seq 0 n) = Ok (map f l).
Proof.
  intros <-. destruct l as [|d l']; [reflexivity|]. set (l := d :: l').
  rewrite (mapM_seq _ (fun k => f (nth k l d))). 2:{ intros k Hk. rewrite (get_ok l k d) by exact Hk. reflexivity. }
  f_equal. transitivity (map f (map (fun k => nth k l d) (seq 0 (length l)))); [rewrite map_map; reflexivity|]. f_equal. symmetry. apply (list_map_nth' l (length l) d eq_refl).
Qed.
Lemma serialize_proof_ok p : proof_shape I p -> serialize_proof (Some c) I p = Ok (enc_proof p).
Proof.
  intros S. unfold serialize_proof. cbn [st_byte_size]. rewrite (api_size _ _ HI).
  rewrite (mapM_get (p_P_delta p)) by apply S. cbn [bind]. rewrite (mapM_get (p_S_at_R p)) by apply S. cbn [bind]. rewrite (mapM_get (p_T_at_R p)) by apply S. reflexivity.
Qed.

Definition tup := (list bytes * (bytes * (bytes * (bytes * (list N * (N * (list N * list N)))))))%type.
Lemma p_proof m : parser (fun ser off => take_proof (Some c) I ser m off) (proof_size I) enc_proof (fun p => proof_shape I p /\ snd (p_reveal p) = m).
Proof.
  pose proof (p_seq _ _ _ _ _ _ _ _ (p_many _ _ _ _ (ceil_log2_nat (num_parties I)) (p_take (seed_size I)))
    (p_seq _ _ _ _ _ _ _ _ (p_take (digest_size I)) (p_seq _ _ _ _ _ _ _ _ (p_take (key_size (i_aes I))) (p_seq _ _ _ _ _ _ _ _ (p_take (num_sboxes (i_aes I)))
     (p_seq _ _ _ _ _ _ _ _ (p_many _ _ _ _ (m2 I + 1) p_elem) (p_seq _ _ _ _ _ _ _ _ p_elem (p_seq _ _ _ _ _ _ _ _ (p_many _ _ _ _ (m1 I) p_elem) (p_many _ _ _ _ (m1 I) p_elem)))))))) as P.
  match type of P with parser ?f ?w ?e ?g => set (ff := f) in P; set (ee := e) in P; set (gg := g) in P; assert (W : w = proof_size I) by (unfold proof_size; lia); rewrite W in P; clear W end.
  set (mk := fun z : tup => let '(a, (b, (d, (t, (ps, (r, (ss, ts))))))) := z in mkProof (a, m) b d t ps r ss ts).
  assert (F : forall ser off, take_proof (Some c) I ser m off = do (z, off) <- ff ser off; Ok (mk z, off)).
  { intros ser off. unfold ff, take_proof.
    repeat match goal with |- (do _ <- ?x; _) = _ => destruct x as [[? ?]| | |]; cbn [bind]; try reflexivity end. }
  assert (Gz : forall z, gg z <-> proof_shape I (mk z) /\ snd (p_reveal (mk z)) = m).
  { intros [a [b [d [t [ps [r [ss ts]]]]]]]. unfold gg, mk. cbn [fst snd p_reveal]. rewrite Forall_forall. split.
    - intros (H1 & H2 & H3 & H4 & H5 & H6 & H7 & H8). split; [|reflexivity]. constructor; cbn [p_reveal p_C p_sk_delta p_t_delta p_P_delta p_P_at_R p_S_at_R p_T_at_R fst]; try assumption; apply H1.
    - intros [[Q1 Q2 Q3 Q4 Q5 Q6 Q7 Q8 Q9] _]. cbn [p_reveal p_C p_sk_delta p_t_delta p_P_delta p_P_at_R p_S_at_R p_T_at_R fst] in *.
      split; [split; [exact Q1|exact Q2]|]. do 6 (split; [assumption|]). assumption. }
  assert (Ez : forall z, enc_proof (mk z) = ee z).
  { intros [a [b [d [t [ps [r [ss ts]]]]]]]. unfold ee, enc_proof, mk. cbn [fst snd p_reveal p_C p_sk_delta p_t_delta p_P_delta p_P_at_R p_S_at_R p_T_at_R]. rewrite map_id. reflexivity. }
  assert (Mk : forall p, snd (p_reveal p) = m -> exists z, mk z = p).
  { intros [[a m'] b d t ps r ss ts] Em. cbn in Em. subst m'. exists (a, (b, (d, (t, (ps, (r, (ss, ts))))))). reflexivity. }
  constructor.
  - intros ser off B L. rewrite F. destruct (pa_run _ _ _ _ P ser off B L) as (z & -> & Hz & E1). cbn [bind]. exists (mk z). split; [reflexivity|]. split; [apply Gz; exact Hz|]. rewrite Ez. exact E1.
  - intros ser off L1 L2 B. rewrite F, (pa_short _ _ _ _ P ser off L1 L2 B). reflexivity.
  - intros p Hp. destruct (Mk p (proj2 Hp)) as [z <-]. rewrite Ez. apply (pa_len _ _ _ _ P). apply Gz. exact Hp.
  - intros p Hp. destruct (Mk p (proj2 Hp)) as [z <-]. rewrite Ez. apply (pa_bytes _ _ _ _ P). apply Gz. exact Hp.
  - intros p q Hp Hq Epq. destruct (Mk p (proj2 Hp)) as [z <-]. destruct (Mk q (proj2 Hq)) as [y <-]. rewrite !Ez in Epq. f_equal. apply (pa_inj _ _ _ _ P); [apply Gz; exact Hp|apply Gz; exact Hq|exact Epq].
Qed.
Lemma p_proofs ms : parser (fun ser off => take_proofs (Some c) I ser ms off) (length ms * proof_size I) (fun l => concat (map enc_proof l))
  (fun l => map (fun p => snd (p_reveal p)) l = ms /\ Forall (proof_shape I) l).
Proof.
  induction ms as [|m ms IH].
  - constructor.
    + intros ser off _ _. exists []. cbn [take_proofs length Nat.mul]. rewrite Nat.add_0_r. auto.
    + intros; cbn in *; lia.
    + intros [|] [L _]; [reflexivity|discriminate L].
    + intros [|] [L _]; [constructor|discriminate L].
    + intros [|] [|] [L _] [L' _] _; try discriminate; reflexivity.
  - pose proof (p_proof m) as P. constructor.
    + intros ser off B L. cbn [length Nat.mul] in *. cbn [take_proofs]. destruct (pa_run _ _ _ _ P ser off B ltac:(lia)) as (x & -> & [Gx Gm] & Ex). cbn [bind].
      destruct (pa_run _ _ _ _ IH ser (off + proof_size I) B ltac:(lia)) as (xs & -> & [Lx Gs] & Es). cbn [bind]. exists (x :: xs). rewrite Nat.add_assoc. split; [reflexivity|].
      split; [split; [cbn [map]; rewrite Lx, Gm; reflexivity|constructor; assumption]|]. cbn [map concat]. rewrite Ex, Es. symmetry. apply slice_app_split.
    + intros ser off L1 L2 Bs. cbn [length Nat.mul] in *. cbn [take_proofs]. destruct (le_lt_dec (off + proof_size I) (length ser)) as [L|L].
      * destruct (pa_run _ _ _ _ P ser off Bs L) as (x & -> & Gx & Ex). cbn [bind]. rewrite (pa_short _ _ _ _ IH); auto. lia.
      * rewrite (pa_short _ _ _ _ P); auto.
    + intros [|x xs] [L G]; [discriminate L|]. injection L as L1 L2. inversion G; subst. cbn [map concat length Nat.mul]. rewrite app_length, (pa_len _ _ _ _ P) by auto.
      f_equal. apply (pa_len _ _ _ _ IH). auto.
    + intros [|x xs] [L G]; [discriminate L|]. injection L as L1 L2. inversion G; subst. cbn [map concat]. apply is_bytes_app; [apply (pa_bytes _ _ _ _ P); auto|].
      apply (pa_bytes _ _ _ _ IH). auto.
    + intros [|x xs] [|y ys] [L G] [L' G'] Exy; try discriminate. injection L as L1 L2. injection L' as L1' L2'. inversion G; subst. inversion G'; subst. cbn [map concat] in Exy.
      apply app_split in Exy; [|rewrite !(pa_len _ _ _ _ P) by auto; reflexivity]. destruct Exy as [E1 E2]. f_equal; [apply (pa_inj _ _ _ _ P); auto|].
      apply (pa_inj _ _ _ _ IH); auto.
Qed.

Definition enc_sig (sig : signature) : bytes := s_salt sig ++ s_h1 sig ++ s_h3 sig ++ concat (map enc_proof (s_proofs sig)).
Lemma serialize_ok sig : sig_shape I sig -> serialize (Some c) I sig = Ok (enc_sig sig) /\ length (enc_sig sig) = sig_size I /\ is_bytes (enc_sig sig).
Proof.
  intros [[S1 B1] [S2 B2] [S3 B3] S4 S5]. split; [|split].
  - unfold serialize. assert (G : mapM (fun rep => do p <- get (s_proofs sig) rep; serialize_proof (Some c) I p) (seq 0 (num_rounds I)) = Ok (map enc_proof (s_proofs sig))).
    { rewrite <- (mapM_get (s_proofs sig) enc_proof (num_rounds I) S4). assert (G : forall l, (forall r, In r l -> r < num_rounds I) ->
        mapM (fun rep => do p <- get (s_proofs sig) rep; serialize_proof (Some c) I p) l = mapM (fun k => do x <- get (s_proofs sig) k; Ok (enc_proof x)) l).
      { induction l as [|r l IH]; intros Hl; [reflexivity|]. cbn [mapM]. pose proof (Hl r (or_introl eq_refl)) as Hr.
        set (d := mkProof ([], 0) [] [] [] [] 0%N [] []). rewrite (get_ok (s_proofs sig) r d) by (rewrite S4; exact Hr). cbn [bind].
        rewrite serialize_proof_ok. 2:{ rewrite Forall_forall in S5. apply S5. apply nth_In. rewrite S4. exact Hr. }
        cbn [bind]. rewrite IH by (intros q Hq; apply Hl; right; exact Hq). reflexivity. }
      apply G. intros r Hr. apply in_seq in Hr. lia. }
    rewrite G. reflexivity.
  - unfold enc_sig. rewrite !app_length, S1, S2, S3. rewrite (pa_len _ _ _ _ (p_proofs (map (fun p => snd (p_reveal p)) (s_proofs sig)))) by (split; [reflexivity|exact S5]).
    rewrite map_length, S4. unfold sig_size. lia.
  - unfold enc_sig. repeat apply is_bytes_app; auto. apply (pa_bytes _ _ _ _ (p_proofs (map (fun p => snd (p_reveal p)) (s_proofs sig)))). split; [reflexivity|exact S5].
Qed.

Lemma enc_sig_inj s1 s2 : sig_shape I s1 -> sig_shape I s2 -> map (fun p => snd (p_reveal p)) (s_proofs s1) = map (fun p => snd (p_reveal p)) (s_proofs s2) ->
  enc_sig s1 = enc_sig s2 -> s1 = s2.
Proof.
  destruct s1 as [a1 b1 c1 d1], s2 as [a2 b2 c2 d2]. intros [[S1 _] [S2 _] [S3 _] _ S5] [[R1 _] [R2 _] [R3 _] _ R5] M X. unfold enc_sig in X. cbn [s_salt s_h1 s_h3 s_proofs] in *.
  apply app_split in X; [|congruence]. destruct X as [-> X]. apply app_split in X; [|congruence]. destruct X as [-> X]. apply app_split in X; [|congruence]. destruct X as [-> X].
  f_equal. apply (pa_inj _ _ _ _ (p_proofs (map (fun p => snd (p_reveal p)) d2))); auto.
Qed.

Variables (H : oracle) (fuel : nat) (garb : nat -> N).
Notation deser := (deserialize H fuel garb (Some c) I).
(** the third header field of a serialized signature *)
Definition h3_of (ser : bytes) : bytes := slice ser (SALT_SIZE + digest_size I) (digest_size I).
Lemma deserialize_run ser ms : is_bytes ser -> sig_size I <= length ser -> phase_3_expand H I fuel garb (h3_of ser) = Ok ms -> length ms = num_rounds I ->
  exists sig, deser ser = Ok sig /\ sig_shape I sig /\ map (fun p => snd (p_reveal p)) (s_proofs sig) = ms /\ s_h3 sig = h3_of ser /\
    enc_sig sig = firstn (sig_size I) ser.
Proof.
  intros B L EM LM. unfold sig_size in *. unfold deserialize.
  destruct (pa_run _ _ _ _ (p_take SALT_SIZE) ser 0 B ltac:(lia)) as (x1 & -> & G1 & E1). cbn [bind].
  destruct (pa_run _ _ _ _ (p_take (digest_size I)) ser (0 + SALT_SIZE) B ltac:(lia)) as (x2 & -> & G2 & E2). cbn [bind].
  destruct (pa_run _ _ _ _ (p_take (digest_size I)) ser (0 + SALT_SIZE + digest_size I) B ltac:(lia)) as (x3 & -> & G3 & E3). cbn [bind].
  change (x3 = h3_of ser) in E3. rewrite <- E3 in EM. rewrite EM. cbn [bind].
  destruct (pa_run _ _ _ _ (p_proofs ms) ser (0 + SALT_SIZE + digest_size I + digest_size I) B) as (ps & -> & [G4 G4'] & E4); [rewrite LM; lia|]. cbn [bind].
  eexists. split; [reflexivity|]. split; [constructor; cbn [s_salt s_h1 s_h3 s_proofs]; auto; rewrite <- LM, <- G4, map_length; reflexivity|].
  split; [exact G4|]. split; [exact E3|]. unfold enc_sig. cbn [s_salt s_h1 s_h3 s_proofs]. rewrite E4, E1, E2. rewrite E3. unfold h3_of. rewrite LM.
  change (firstn (SALT_SIZE + 2 * digest_size I + num_rounds I * proof_size I) ser) with (slice ser 0 (SALT_SIZE + 2 * digest_size I + num_rounds I * proof_size I)).
  replace (SALT_SIZE + 2 * digest_size I + num_rounds I * proof_size I) with (SALT_SIZE + (digest_size I + (digest_size I + num_rounds I * proof_size I))) by lia.
  rewrite !slice_app_split. reflexivity.
Qed.
Lemma deserialize_exact ser ms : is_bytes ser -> length ser = sig_size I -> phase_3_expand H I fuel garb (h3_of ser) = Ok ms -> length ms = num_rounds I ->
  exists sig, deser ser = Ok sig /\ sig_shape I sig /\ map (fun p => snd (p_reveal p)) (s_proofs sig) = ms /\ serialize (Some c) I sig = Ok ser.
Proof.
  intros B L EM LM. destruct (deserialize_run ser ms B ltac:(lia) EM LM) as (sig & A1 & A2 & A3 & _ & A5). exists sig. split; [exact A1|]. split; [exact A2|]. split; [exact A3|].
  rewrite (proj1 (serialize_ok sig A2)), A5, <- L, firstn_all. reflexivity.
Qed.
Hypothesis HN : 1 <= num_parties I.
Lemma deserialize_long ser : is_bytes ser -> sig_size I <= length ser -> deser ser = deser (firstn (sig_size I) ser).
Proof.
  intros B L. assert (E3 : h3_of (firstn (sig_size I) ser) = h3_of ser).
  { unfold h3_of, slice. unfold sig_size in *. rewrite skipn_firstn_comm, firstn_firstn. f_equal. lia. }
  assert (Lf : length (firstn (sig_size I) ser) = sig_size I) by (rewrite firstn_length; lia).
  assert (Bf : is_bytes (firstn (sig_size I) ser)) by (apply is_bytes_firstn; exact B).
  destruct (phase_3_outcome H I HN fuel garb (h3_of ser)) as [EM|(ms & EM & LM & _)].
  - unfold deserialize, take. unfold sig_size in *. rewrite !read_ok by lia. cbn [bind]. rewrite !read_ok by lia. cbn [bind]. rewrite !read_ok by lia. cbn [bind].
    change (slice ser (0 + SALT_SIZE + digest_size I) (digest_size I)) with (h3_of ser). 
    match goal with |- context [slice (firstn ?k ser) (0 + SALT_SIZE + digest_size I) (digest_size I)] =>
      change (slice (firstn k ser) (0 + SALT_SIZE + digest_size I) (digest_size I)) with (h3_of (firstn k ser)) end.
    rewrite E3, EM. reflexivity.
  - destruct (deserialize_run ser ms B L EM LM) as (s1 & -> & S1 & M1 & _ & C1). rewrite <- E3 in EM.
    destruct (deserialize_run _ ms Bf ltac:(lia) EM LM) as (s2 & -> & S2 & M2 & _ & C2). f_equal. apply enc_sig_inj; auto; [congruence|].
    rewrite C1, C2, firstn_firstn, Nat.min_id. reflexivity.
Qed.
Lemma deserialize_short ser : is_bytes ser -> length ser < sig_size I -> deser ser = UB OutOfBounds \/ deser ser = OutOfFuel.
Proof.
  intros B L. unfold deserialize.
  destruct (le_lt_dec SALT_SIZE (length ser)) as [L1|L1]; [|left; rewrite (pa_short _ _ _ _ (p_take SALT_SIZE)) by (auto; lia); reflexivity].
  destruct (pa_run _ _ _ _ (p_take SALT_SIZE) ser 0 B ltac:(lia)) as (x1 & -> & G1 & E1). cbn [bind].
  destruct (le_lt_dec (SALT_SIZE + digest_size I) (length ser)) as [L2|L2]; [|left; rewrite (pa_short _ _ _ _ (p_take (digest_size I))) by (auto; lia); reflexivity].
  destruct (pa_run _ _ _ _ (p_take (digest_size I)) ser (0 + SALT_SIZE) B ltac:(lia)) as (x2 & -> & G2 & E2). cbn [bind].
  destruct (le_lt_dec (SALT_SIZE + digest_size I + digest_size I) (length ser)) as [L3|L3]; [|left; rewrite (pa_short _ _ _ _ (p_take (digest_size I))) by (auto; lia); reflexivity].
  destruct (pa_run _ _ _ _ (p_take (digest_size I)) ser (0 + SALT_SIZE + digest_size I) B ltac:(lia)) as (x3 & -> & G3 & E3). cbn [bind].
  destruct (phase_3_outcome H I HN fuel garb x3) as [->|(ms & -> & LM & _)]; [right; reflexivity|left]. cbn [bind].
  unfold sig_size in L. rewrite <- LM in L. rewrite (pa_short _ _ _ _ (p_proofs ms)) by (auto; lia). reflexivity.
Qed.
(** a round trip: only the stored indices of the opened parties have to be those derived from h_3 *)
Lemma roundtrip_sig sig : sig_shape I sig -> phase_3_expand H I fuel garb (s_h3 sig) = Ok (map (fun p => snd (p_reveal p)) (s_proofs sig)) ->
  deser (enc_sig sig) = Ok sig.
Proof.
  intros S EM. destruct (serialize_ok sig S) as (_ & L & B).
  assert (E3 : h3_of (enc_sig sig) = s_h3 sig).
  { destruct S as [[S1 _] [S2 _] [S3 _] _ _]. unfold h3_of, enc_sig, slice. rewrite app_assoc. rewrite skipn_app, skipn_all2 by (rewrite app_length; lia).
    rewrite app_length, S1, S2, Nat.sub_diag. cbn [app skipn]. rewrite firstn_app, S3, Nat.sub_diag. cbn [firstn]. rewrite app_nil_r. apply firstn_all2. lia. }
  rewrite <- E3 in EM. destruct (deserialize_run _ _ B ltac:(lia) EM) as (s2 & -> & S2 & M2 & _ & C2); [rewrite map_length; apply S|].
  f_equal. apply enc_sig_inj; auto. rewrite C2, <- L, firstn_all. reflexivity.
Qed.
End Ser.
