(** The seed trees, commitments and tapes of one repetition in flat containers *)
From Coq Require Import Arith NArith List Bool Lia.
From Verif Require Import Prelude HashModel TreeModel Instances ContainerModel MemModel BanquetModel MemBase MemAes MemRows FreeSpec.
Import ListNotations.

Lemma x4_4_len c ds : length c = 4 -> length ds = 4 -> length (hash_update_x4_4 c ds) = 4.
Proof. intros L L'. unfold hash_update_x4_4. rewrite map_length, combine_length. lia. Qed.
Lemma squeeze_len H c n : length (fst (hash_squeeze H c n)) = n.
Proof. destruct (hash_squeeze H c n) eqn:E. exact (proj1 (squeeze_shape _ _ _ _ _ E)). Qed.
Lemma squeeze4_shape H c n : length c = 4 ->
  length (fst (hash_squeeze_x4 H c n)) = 4 /\ Forall (fun v => length v = n) (fst (hash_squeeze_x4 H c n)).
Proof. intros L. unfold hash_squeeze_x4. cbn [fst]. split; [rewrite map_length; exact L|]. apply Forall_map, Forall_forall. intros x _. apply squeeze_len. Qed.
Lemma commit4_shape H I s0 s1 s2 s3 salt rep p vs : commit_to_4_party_seeds H I s0 s1 s2 s3 salt rep p = Ok vs ->
  length vs = 4 /\ Forall (fun v => length v = digest_size I) vs.
Proof.
  unfold commit_to_4_party_seeds. intros E. apply bind_ok in E as (seeds & Es & E). apply mapM_length in Es. injection E as <-.
  apply squeeze4_shape. unfold hash_final_x4. rewrite map_length. apply x4_4_len; [|exact Es].
  repeat (apply x4_4_len; [|reflexivity]). reflexivity.
Qed.
Lemma tapes4_shape H I s0 s1 s2 s3 salt rep p vs : generate_4_tapes H I salt rep p s0 s1 s2 s3 = Ok vs ->
  length vs = 4 /\ Forall (fun v => length v = tape_size I) vs.
Proof.
  unfold generate_4_tapes. intros E. apply bind_ok in E as (seeds & Es & E). apply mapM_length in Es. injection E as <-.
  apply squeeze4_shape. unfold hash_final_x4. rewrite map_length. repeat (apply x4_4_len; [|reflexivity]). apply x4_4_len; [reflexivity|exact Es].
Qed.
Lemma commit_len H I s salt rep p : length (commit_to_party_seed H I s salt rep p) = digest_size I.
Proof. apply squeeze_len. Qed.
Lemma tape_len H I salt rep p s : length (generate_tape H I salt rep p s) = tape_size I.
Proof. apply squeeze_len. Qed.
Lemma u16_id x : (N.of_nat x < 65536)%N -> u16 x = x.
Proof. intros L. unfold u16. rewrite N.mod_small by exact L. apply Nnat.Nat2N.id. Qed.

Section Setup.
Variable H : oracle.
Variable I : instance.
Hypothesis Hn : (N.of_nat (num_parties I) < 65536)%N.
Local Notation n := (num_parties I).
Local Notation T := (num_rounds I).

(** four slots written from a computation that yields four strings *)
Lemma step4 sz f0 rep idx (x : res (list bytes)) acc st : rep < T -> (forall vs, x = Ok vs -> length vs = 4 /\ Forall (fun v => length v = sz) vs) ->
  (forall i, i < 4 -> idx i = length acc + i) -> length acc + 4 <= n -> holds st T n sz (rowfill f0 rep acc) ->
  sim (fun vs st' => length vs = 4 /\ holds st' T n sz (rowfill f0 rep (acc ++ vs))) x (do vs <- x; m_copy4 st rep idx vs).
Proof.
  intros Hr HS HI HL Hst. destruct x as [vs|e|r|]; cbn [bind sim]; auto. destruct (HS vs eq_refl) as [L F].
  destruct (row_write4 T n sz rep Hr f0 st acc vs idx Hst HL L F HI) as (c' & E & H'). exists c'. split; [exact E|]. auto.
Qed.
Lemma step1 sz f0 rep (x : res bytes) acc st : rep < T -> (forall v, x = Ok v -> length v = sz) ->
  length acc < n -> holds st T n sz (rowfill f0 rep acc) ->
  sim (fun v st' => holds st' T n sz (rowfill f0 rep (acc ++ [v]))) x (do v <- x; m_copy st rep (length acc) v).
Proof.
  intros Hr HS HL Hst. destruct x as [v|e|r|]; cbn [bind sim]; auto.
  destruct (row_write T n sz rep Hr f0 st acc v Hst HL (HS v eq_refl)) as (c' & E & H'). exists c'. split; [exact E|]. auto.
Qed.
Lemma bind_assoc {A B C} (x : res A) (f : A -> res B) (g : B -> res C) : bind x (fun a => bind (f a) g) = bind (bind x f) g.
Proof. destruct x; reflexivity. Qed.

Lemma verify_setup_sim salt proof rep missing coms tapes f0 ft : rep < T ->
  holds coms T n (digest_size I) f0 -> (forall p, p < n -> f0 rep p = zeros (digest_size I)) -> holds tapes T n (tape_size I) ft ->
  sim (fun ct m' => length (fst ct) = n /\ length (snd ct) = n /\
        holds (fst m') T n (digest_size I) (rowfill f0 rep (fst ct)) /\ holds (snd m') T n (tape_size I) (rowfill ft rep (snd ct)))
    (verify_setup H I salt proof rep missing) (m_verify_setup H I salt proof rep missing (coms, tapes)).
Proof.
  intros Hr Hc Hz Ht. unfold verify_setup, m_verify_setup. destruct (negb (missing =? snd (p_reveal proof))); [reflexivity|].
  apply sim_same. intros t _.
  set (leaf_or := fun p => do o <- get_leaf t p; Ok (value_or o (zeros (seed_size I)))).
  eapply sim_bind; [apply (row_by4 T n (digest_size I) rep Hr f0 _ _ _ _ coms Hc)|].
  - intros acc st L Hst.
    repeat (apply sim_same; intros ? _).
    apply step4; [exact Hr|intros vs E; exact (commit4_shape _ _ _ _ _ _ _ _ _ _ E)|reflexivity|exact L|exact Hst].
  - intros acc st L Hst. destruct (Nat.eqb_spec (length acc) missing) as [E|E].
    + apply sim_ok. eapply holds_ext; [exact Hst|]. intros r p _ Hp. unfold rowfill. rewrite app_length. cbn [length].
      destruct (Nat.eqb_spec r rep); cbn [andb]; [|reflexivity]. subst r.
      destruct (Nat.ltb_spec p (length acc)), (Nat.ltb_spec p (length acc + 1)); try lia; try reflexivity.
      * rewrite app_nth1 by lia. reflexivity.
      * replace p with (length acc) by lia. rewrite app_nth2, Nat.sub_diag by lia. cbn [nth]. apply Hz. lia.
    + apply sim_same. intros o _. apply sim_same. intros s _.
      pose proof (step1 (digest_size I) f0 rep (Ok (commit_to_party_seed H I s salt rep (length acc))) acc st Hr) as S1. cbn [bind] in S1.
      apply S1; [|lia|exact Hst]. intros v Ev. injection Ev as <-. apply commit_len.
  - intros cs coms1 _ [Lc Hc1]. cbv beta in Hc1.
    apply sim_get. intros com Ecom. destruct (get_inv _ _ _ Ecom) as [Nc Hm].
    assert (Hmn : missing < n) by (rewrite <- Lc; exact Hm).
    unfold copy_into. destruct (Nat.leb_spec (length (p_C proof)) (length com)) as [Lp|]; cbn [bind]; [|exact Logic.I].
    unfold set. rewrite (proj2 (Nat.ltb_lt _ _) Hm). cbn [bind].
    assert (Ef : rowfill f0 rep cs rep missing = com).
    { unfold rowfill. rewrite Nat.eqb_refl. cbn [andb].
      match goal with |- (if ?b then _ else _) = _ => replace b with true by (symmetry; apply Nat.ltb_lt; exact Hm) end.
      apply nth_error_nth. exact Nc. }
    assert (Lcom : length com = digest_size I) by (rewrite <- Ef; apply (holds_len _ _ _ _ _ _ _ Hc1); [exact Hr|exact Hmn]).
    destruct (holds_copy _ _ _ _ _ rep missing (p_C proof) Hc1 Hr Hmn ltac:(lia)) as (coms2 & E2 & Hc2).
    rewrite E2. cbn [bind]. rewrite Ef in Hc2.
    eapply sim_bind; [apply (row_by4 T n (tape_size I) rep Hr ft _ _ _ _ tapes Ht)|].
    + intros acc st L Hst. repeat (apply sim_same; intros ? _).
      apply step4; [exact Hr|intros vs E; exact (tapes4_shape _ _ _ _ _ _ _ _ _ _ E)| |exact L|exact Hst].
      intros i Hi. apply u16_id. lia.
    + intros acc st L Hst. apply sim_same. intros s _.
      pose proof (step1 (tape_size I) ft rep (Ok (generate_tape H I salt rep (length acc) s)) acc st Hr) as S1. cbn [bind] in S1.
      apply S1; [|lia|exact Hst]. intros v Ev. injection Ev as <-. apply tape_len.
    + intros ts tapes1 _ [Lt Ht1]. apply sim_ok. cbn [fst snd]. rewrite upd_length. repeat (split; [assumption|]). split; [|exact Ht1].
      eapply holds_ext; [exact Hc2|]. intros r p _ _. apply rowfill_upd. exact Hm.
Qed.

Lemma sign_setup_sim salt rep master coms tapes f0 ft : rep < T ->
  holds coms T n (digest_size I) f0 -> holds tapes T n (tape_size I) ft ->
  sim (fun x m' => fst m' = fst (fst x) /\ length (snd (fst x)) = n /\ length (snd x) = n /\
        holds (fst (snd m')) T n (digest_size I) (rowfill f0 rep (snd (fst x))) /\ holds (snd (snd m')) T n (tape_size I) (rowfill ft rep (snd x)))
    (sign_setup H I salt rep master) (m_sign_setup H I salt rep master (coms, tapes)).
Proof.
  intros Hr Hc Ht. unfold sign_setup, m_sign_setup. apply sim_same. intros t _.
  set (leaf := fun p => do o <- get_leaf t p; value o).
  eapply sim_bind; [apply (row_by4 T n (digest_size I) rep Hr f0 _ _ _ _ coms Hc)|].
  - intros acc st L Hst. repeat (apply sim_same; intros ? _).
    apply step4; [exact Hr|intros vs E; exact (commit4_shape _ _ _ _ _ _ _ _ _ _ E)|reflexivity|exact L|exact Hst].
  - intros acc st L Hst. apply sim_same. intros s _.
    pose proof (step1 (digest_size I) f0 rep (Ok (commit_to_party_seed H I s salt rep (length acc))) acc st Hr) as S1. cbn [bind] in S1.
    apply S1; [|lia|exact Hst]. intros v Ev. injection Ev as <-. apply commit_len.
  - intros cs coms1 _ [Lc Hc1].
    assert (EF : forall tp, foldM (fun tapes p => do s <- leaf p; m_copy tapes rep p (generate_tape H I salt rep p s)) (seq 0 n) tp =
      foldM (fun tapes p => do v <- (do s <- leaf p; Ok (generate_tape H I salt rep p s)); m_copy tapes rep p v) (seq 0 n) tp).
    { generalize (seq 0 n). induction l as [|p l IH]; intros tp; [reflexivity|]. cbn [foldM]. destruct (leaf p) as [s|e|r|]; cbn [bind]; try reflexivity.
      destruct (m_copy tp rep p (generate_tape H I salt rep p s)); cbn [bind]; auto. }
    rewrite EF. eapply sim_bind; [apply (row_loop T n (tape_size I) rep Hr ft _ (fun p => do s <- leaf p; Ok (generate_tape H I salt rep p s)) tapes Ht)|].
    + intros p _. apply sim_refl.
    + intros p v _ E. apply bind_ok in E as (s & _ & E). injection E as <-. apply tape_len.
    + intros ts tapes1 _ [Lt Ht1]. apply sim_ok. cbn [fst snd]. auto.
Qed.
End Setup.
