(** banquet_sign and banquet_verify on flat containers end as the ones on lists do *)
From Coq Require Import Arith NArith List Bool Lia.
From Verif Require Import Prelude FieldModel PolyModel HashModel TreeModel Instances ContainerModel MemModel BanquetModel BanquetHash MemBase MemAes MemRows MemSetup MemPhase1 MemPhase5 FreeSpec.
Import ListNotations.

Section Mat.
Context {A : Type}.
Variables (R n sz : nat) (d : list A) (X : list (list (list A))) (c : container A).
Hypothesis Hc : holds c R n sz (matfill d X).
Hypothesis HX : length X = R.
Hypothesis HR : Forall (fun row => length row = n) X.
Lemma mat_get r p : r < R -> p < n -> k_get c r p = Ok (nth p (nth r X []) []).
Proof. intros Hr Hp. rewrite (holds_get _ _ _ _ _ r p Hc Hr Hp). unfold matfill. rewrite HX, (proj2 (Nat.ltb_lt _ _) Hr). reflexivity. Qed.
Lemma mat_len r : r < R -> length (nth r X []) = n.
Proof. intros Hr. apply Forall_nth; [exact HR|lia]. Qed.
Lemma mat_row r : r < R -> k_get_repetition c r = Ok (nth r X []).
Proof.
  intros Hr. rewrite (holds_rep _ _ _ _ _ r Hc Hr). f_equal. rewrite <- (seq_map_nth (nth r X []) [] n) by (apply mat_len; exact Hr).
  apply map_ext_in. intros p _. unfold matfill. rewrite HX, (proj2 (Nat.ltb_lt _ _) Hr). reflexivity.
Qed.
End Mat.
Lemma mat_new {A} (x : A) R n sz : holds (k_new x R n sz) R n sz (matfill (repeat x sz) []).
Proof. eapply holds_ext; [apply holds_new|]. intros r p _ _. reflexivity. Qed.
Lemma matfill_next {A} (d : list A) X p : matfill d X (length X) p = d.
Proof. unfold matfill. rewrite Nat.ltb_irrefl. reflexivity. Qed.
Lemma Forall_snoc {A} (P : A -> Prop) l x : Forall P l -> P x -> Forall P (l ++ [x]).
Proof. intros F H. apply Forall_app. auto. Qed.

Section Body.
Variable H : oracle.
Variable I : instance.
Hypothesis HI : proper I.
Variable c : fctx.
Local Notation n := (num_parties I).
Local Notation T := (num_rounds I).
Local Notation ks := (key_size (i_aes I)).
Local Notation sb := (num_sboxes (i_aes I)).
Local Notation mat X := (length X = T /\ Forall (fun row => length row = n) X).

Lemma u16_parties : (N.of_nat n < 65536)%N. Proof. apply (pr_parties I HI). Qed.

Lemma phase_1_ctx_eq salt pk msg coms kds tds bcasts (C B : list (list bytes)) dc db : mat C -> mat B ->
  holds coms T n (digest_size I) (matfill dc C) -> holds bcasts T n (pt_size I) (matfill db B) ->
  m_phase_1_ctx I salt pk msg coms kds tds bcasts = phase_1_ctx I salt pk msg C kds tds B.
Proof.
  intros [LC FC] [LB FB] HC HB. unfold m_phase_1_ctx, phase_1_ctx.
  match goal with |- bind ?x _ = bind ?y _ => assert (E : x = y); [|rewrite E; reflexivity] end.
  apply mapM_ext. intros rep Hrep. apply in_seq in Hrep.
  rewrite (get_ok C rep []), (get_ok B rep []) by (unfold bytes in *; lia). cbn [bind].
  match goal with |- bind ?x _ = bind ?y _ => assert (E : x = y); [|rewrite E; reflexivity] end.
  apply mapM_ext. intros p Hp. apply in_seq in Hp.
  rewrite (mat_get _ _ _ _ _ _ HC LC), (mat_get _ _ _ _ _ _ HB LB) by lia.
  rewrite (get_ok (nth rep C []) p []), (get_ok (nth rep B []) p []); [reflexivity| |].
  - pose proof (mat_len T n B LB FB rep ltac:(lia)) as E. unfold bytes in *. lia.
  - pose proof (mat_len T n C LC FC rep ltac:(lia)) as E. unfold bytes in *. lia.
Qed.
Lemma get_map {A B} (f : A -> B) l i : get (map f l) i = do x <- get l i; Ok (f x).
Proof. unfold get. rewrite nth_error_map. destruct (nth_error l i); reflexivity. Qed.
Lemma phase_3_ctx_eq salt h2 opened (V : list (list view)) a b da db : mat V ->
  holds a T n (m1 I) (matfill da (map (map v_a) V)) -> holds b T n (m1 I) (matfill db (map (map v_b) V)) ->
  m_phase_3_ctx I c salt h2 opened (map (map v_c) V) a b = phase_3_ctx I c salt h2 opened V.
Proof.
  intros [LV FV] Ha Hb. unfold m_phase_3_ctx, phase_3_ctx.
  match goal with |- bind ?x _ = bind ?y _ => assert (E : x = y); [|rewrite E; reflexivity] end.
  apply mapM_ext. intros rep Hrep. apply in_seq in Hrep.
  destruct (get opened rep) as [o|e|r|]; cbn [bind]; try reflexivity.
  rewrite get_map, (get_ok V rep []) by lia. cbn [bind]. destruct (elem_bytes I c (v_c o)) as [c0|e|r|]; cbn [bind]; try reflexivity.
  assert (Lrow : length (nth rep V []) = n) by (apply Forall_nth; [exact FV|lia]).
  match goal with |- bind ?x _ = bind ?y _ => assert (E : x = y) end.
  { apply mapM_ext. intros p Hp. rewrite get_map. destruct (get (nth rep V []) p); reflexivity. }
  rewrite E. clear E. match goal with |- bind ?x _ = bind ?x _ => destruct x as [cp|e|r|]; cbn [bind]; try reflexivity end.
  match goal with |- bind ?x _ = bind ?y _ => assert (E : x = y); [|rewrite E; reflexivity] end.
  apply mapM_ext. intros j _. destruct (get (v_a o) j) as [x|e|r|]; cbn [bind]; try reflexivity.
  destruct (elem_bytes I c x) as [x'|e|r|]; cbn [bind]; try reflexivity. destruct (get (v_b o) j) as [y|e|r|]; cbn [bind]; try reflexivity.
  destruct (elem_bytes I c y) as [y'|e|r|]; cbn [bind]; try reflexivity.
  match goal with |- bind ?x _ = bind ?y _ => assert (E : x = y); [|rewrite E; reflexivity] end.
  apply mapM_ext. intros p Hp. apply in_seq in Hp.
  assert (MN : forall (f : view -> list N), nth p (nth rep (map (map f) V) []) [] = f (nth p (nth rep V []) ([], [], 0%N))).
  { intros f. change (@nil (list N)) with (map f []). rewrite (map_nth (map f)). apply nth_error_nth. rewrite nth_error_map.
    rewrite (nth_error_nth' _ (([], [], 0%N) : view)) by lia. reflexivity. }
  rewrite (mat_get _ _ _ _ _ _ Ha), (mat_get _ _ _ _ _ _ Hb), !MN by (rewrite ?map_length; lia).
  rewrite (get_ok (nth rep V []) p ([], [], 0%N)) by lia. reflexivity.
Qed.

(** ** verification *)
Definition setups (acc : list (list bytes * list bytes)) (m : container N * container N) : Prop :=
  holds (fst m) T n (digest_size I) (matfill (zeros (digest_size I)) (map fst acc)) /\
  holds (snd m) T n (tape_size I) (matfill (zeros (tape_size I)) (map snd acc)) /\
  Forall (fun row => length row = n) (map fst acc) /\ Forall (fun row => length row = n) (map snd acc).
Definition phases1 (acc : list (list bytes * list bytes * list bytes)) (h : shares) : Prop :=
  (exists fk, holds (h_keys h) T n ks fk) /\
  holds (h_s h) T n sb (matfill (zeros sb) (map (fun x => fst (fst x)) acc)) /\
  holds (h_t h) T n sb (matfill (zeros sb) (map (fun x => snd (fst x)) acc)) /\
  holds (h_bcast h) T n (pt_size I) (matfill (zeros (pt_size I)) (map snd acc)) /\
  Forall (fun row => length row = n) (map (fun x => fst (fst x)) acc) /\ Forall (fun row => length row = n) (map (fun x => snd (fst x)) acc) /\
  Forall (fun row => length row = n) (map snd acc).
Definition phases5 (acc : list (view * list view)) (m : list view * list (list N) * (container N * container N)) : Prop :=
  let '(opened, c_shares, ab) := m in
  opened = map fst acc /\ c_shares = map (map v_c) (map snd acc) /\
  holds (fst ab) T n (m1 I) (matfill (repeat 0%N (m1 I)) (map (map v_a) (map snd acc))) /\
  holds (snd ab) T n (m1 I) (matfill (repeat 0%N (m1 I)) (map (map v_b) (map snd acc))) /\
  Forall (fun row => length row = n) (map snd acc).
Lemma shares_new : phases1 [] (mkShares (k_new 0%N T n ks) (k_new 0%N T n sb) (k_new 0%N T n sb) (k_new 0%N T n (pt_size I))).
Proof. split; [eexists; apply holds_new|]. repeat (split; [apply mat_new|]). cbn [map]. auto. Qed.
Lemma phases5_new : phases5 [] ([], [], (k_new 0%N T n (m1 I), k_new 0%N T n (m1 I))).
Proof. repeat split; try apply mat_new; try constructor. Qed.
Lemma phases5_step acc opened cs ab x y : length acc < T -> phases5 acc (opened, cs, ab) ->
  rep5 I (length acc) (matfill (repeat 0%N (m1 I)) (map (map v_a) (map snd acc))) (matfill (repeat 0%N (m1 I)) (map (map v_b) (map snd acc))) x y ->
  phases5 (acc ++ [x]) (opened ++ [fst (fst y)], cs ++ [snd (fst y)], snd y).
Proof.
  intros L (Eo & Ec & Ha & Hb & F) (E1 & E2 & Lx & Ha' & Hb'). unfold phases5. rewrite !map_app. cbn [map].
  split; [congruence|]. split; [congruence|].
  split; [apply holds_snoc; [|rewrite map_length; exact Lx]; rewrite !map_length; exact Ha'|].
  split; [apply holds_snoc; [|rewrite map_length; exact Lx]; rewrite !map_length; exact Hb'|]. apply Forall_snoc; assumption.
Qed.

Lemma verify_contexts_sim fuel garb pk sig msg : sim eq (verify_contexts H I c fuel garb pk sig msg) (m_verify_contexts H I c fuel garb pk sig msg).
Proof.
  unfold verify_contexts, m_verify_contexts. apply sim_same. intros pt _. apply sim_same. intros ct _.
  apply sim_same. intros h2 _. apply sim_same. intros rss _. apply sim_same. intros Rs _. apply sim_same. intros missing Emis.
  assert (Hmis : forall rep mi, get missing rep = Ok mi -> mi < n).
  { destruct (phase_3_outcome H I ltac:(pose proof (pr_parties I HI); lia) fuel garb (s_h3 sig)) as [E|(l & E & _ & F & _)]; [congruence|].
    assert (l = missing) by congruence. subst l. intros rep mi E'. apply get_inv in E' as [E' _]. rewrite Forall_forall in F. apply F. eapply nth_error_In. exact E'. }
  (* seed trees *)
  eapply sim_bind.
  { apply (sim_loop setups) with (s := 0) (acc := []) (n := T); [|reflexivity|].
    - intros acc [coms tapes] L (Hc & Ht & Fc & Ft). cbn [fst snd] in Hc, Ht. cbv beta. apply sim_same. intros proof _. apply sim_same. intros mi _.
      eapply sim_mono; [refine (verify_setup_sim H I u16_parties (s_salt sig) proof (length acc) mi coms tapes _ (matfill (zeros (tape_size I)) (map snd acc)) ltac:(lia) Hc _ Ht)|].
      + intros p _. rewrite <- (map_length fst acc). apply matfill_next.
      + intros x m' _ (L1 & L2 & H1 & H2). unfold setups. rewrite !map_app. cbn [map].
        split; [apply holds_snoc; [rewrite map_length; exact H1|exact L1]|]. split; [apply holds_snoc; [rewrite map_length; exact H2|exact L2]|].
        split; apply Forall_snoc; assumption.
    - repeat split; try apply mat_new; try constructor. }
  intros setup [coms tapes] _ (Ls & (Hc & Ht & Fc & Ft)). cbn [fst snd app] in *. cbv beta iota zeta.
  assert (Lc : length (map fst setup) = T) by (rewrite map_length; exact Ls). assert (Lt : length (map snd setup) = T) by (rewrite map_length; exact Ls).
  (* executions of AES *)
  eapply sim_bind.
  { apply (sim_loop phases1) with (s := 0) (acc := []) (n := T); [|reflexivity|apply shares_new].
    intros acc h L ((fk & Hk) & Hs & Htt & Hb & F1 & F2 & F3). cbv beta. apply sim_same. intros proof _. apply sim_same. intros mi _.
    rewrite (get_ok (map snd setup) (length acc) []) by (unfold bytes in *; lia). cbn [bind].
    eapply sim_mono; [refine (verify_phase1_sim I HI (length acc) _ pt ct proof mi tapes (nth (length acc) (map snd setup) []) h _ _ _ _ (mat_len T n _ Lt Ft (length acc) _) _ Hk Htt Hs Hb); try lia|].
    - intros p Hp. apply (mat_get _ _ _ _ _ _ Ht Lt); lia.
    - intros x h' _ (L1 & L2 & L3 & Hk' & Hs' & Ht' & Hb'). unfold phases1. rewrite !map_app. cbn [map]. split; [exact Hk'|].
      split; [apply holds_snoc; [rewrite map_length; exact Hs'|exact L1]|]. split; [apply holds_snoc; [rewrite map_length; exact Ht'|exact L2]|].
      split; [apply holds_snoc; [rewrite map_length; exact Hb'|exact L3]|]. repeat split; apply Forall_snoc; assumption. }
  intros ph1 h _ (Lp & (_ & Hs & Htt & Hb & F1 & F2 & F3)). cbn [app] in *. cbv beta iota zeta.
  apply sim_same. intros pre1 _. apply sim_same. intros pre2 _.
  (* shares of the polynomials *)
  eapply sim_bind.
  { apply sim_mapM_eq. intros rep Hrep. apply in_seq in Hrep. apply sim_same. intros proof _. apply sim_same. intros mi _. apply sim_same. intros rs _.
    rewrite (get_ok (map snd setup) rep []) by (unfold bytes in *; lia). cbn [bind].
    rewrite (get_ok ph1 rep ([], [], [])) by (unfold bytes in *; lia). cbn [bind].
    rewrite (mat_row _ _ _ _ _ _ Hs), (mat_row _ _ _ _ _ _ Htt), (mat_row _ _ _ _ _ _ Ht) by (try assumption; rewrite ?map_length; try exact Lp; lia). cbn [bind].
    pose proof (map_nth (fun x : list bytes * list bytes * list bytes => fst (fst x)) ph1 ([], [], []) rep) as M1.
    pose proof (map_nth (fun x : list bytes * list bytes * list bytes => snd (fst x)) ph1 ([], [], []) rep) as M2.
    cbn [fst snd] in M1, M2. unfold bytes in *. rewrite M1, M2. apply sim_refl. }
  intros ph3 ph3' _ <-.
  (* shares of a, b and c *)
  eapply sim_bind.
  { apply (sim_loop phases5) with (s := 0) (acc := []) (n := T); [|reflexivity|apply phases5_new].
    intros acc [[opened cs] [a b]] L HP. pose proof HP as (Eo & Ec & Ha & Hb5 & F5). cbn [fst snd] in Ha, Hb5. cbv beta iota.
    apply sim_same. intros proof _. apply sim_same. intros mi Emi. apply sim_same. intros R _. apply sim_same. intros p3 _.
    pose proof (verify_phase5_sim I c (length acc) ltac:(lia) pre1 pre2 R proof mi p3 a b _ _ (Hmis _ _ Emi) Ha Hb5) as S5.
    assert (Z : forall f p, p < n -> matfill (repeat 0%N (m1 I)) (map (map f) (map snd acc)) (length acc) p = repeat 0%N (m1 I)).
    { intros f p _. rewrite <- (map_length snd acc), <- (map_length (map f) (map snd acc)). apply matfill_next. }
    specialize (S5 (Z v_a) (Z v_b)). unfold sim in S5 |- *. destruct (verify_phase5 I c pre1 pre2 R proof mi p3) as [x|e|r|]; auto.
    - destruct S5 as ([[o cs'] ab'] & E5 & R5). rewrite E5. cbn [bind]. eexists. split; [reflexivity|].
      exact (phases5_step acc opened cs (a, b) x (o, cs', ab') ltac:(lia) HP R5).
    - rewrite S5. reflexivity.
    - rewrite S5. reflexivity. }
  intros ph5 [[opened cs] ab] _ (L5 & (Eo & Ec & Ha & Hb5 & F5)). cbn [app] in *. cbv beta iota zeta. subst opened cs.
  rewrite (phase_1_ctx_eq _ _ _ _ _ _ _ (map fst setup) (map snd ph1) _ _ (conj Lc Fc) (conj (eq_trans (map_length snd ph1) Lp) F3) Hc Hb).
  rewrite (phase_3_ctx_eq _ _ _ (map snd ph5) (fst ab) (snd ab) _ _ (conj (eq_trans (map_length snd ph5) L5) F5) Ha Hb5).
  apply sim_refl.
Qed.
Lemma verify_body_sim fuel garb pk sig msg : sim eq (verify_body H I c fuel garb pk sig msg) (m_verify_body H I c fuel garb pk sig msg).
Proof.
  unfold verify_body, m_verify_body. eapply sim_bind; [apply verify_contexts_sim|]. intros [ctx1 ctx3] y _ <-. apply sim_refl.
Qed.

(** ** signing *)
Definition s_setups (acc : list (tree * list bytes * list bytes)) (m : list tree * (container N * container N)) : Prop :=
  fst m = map (fun x => fst (fst x)) acc /\
  holds (fst (snd m)) T n (digest_size I) (matfill (zeros (digest_size I)) (map (fun x => snd (fst x)) acc)) /\
  holds (snd (snd m)) T n (tape_size I) (matfill (zeros (tape_size I)) (map snd acc)) /\
  Forall (fun row => length row = n) (map (fun x => snd (fst x)) acc) /\ Forall (fun row => length row = n) (map snd acc).
Definition s_phases1 (acc : list rep1) (m : list bytes * list bytes * shares) : Prop :=
  let '(kds, tds, h) := m in
  kds = map r1_key_delta acc /\ tds = map r1_t_delta acc /\ phases1 (map (fun x => (r1_s x, r1_t x, r1_bcast x)) acc) h.

Lemma sign_body_sim fuel garb kp msg : sim eq (sign_body H I c fuel garb kp msg) (m_sign_body H I c fuel garb kp msg).
Proof.
  unfold sign_body, m_sign_body. apply sim_same. intros pt _. apply sim_same. intros ct _. apply sim_same. intros sv _.
  destruct (generate_salt_and_seeds H I kp msg) as [salt seeds].
  (* seed trees *)
  eapply sim_bind.
  { apply (sim_loop s_setups) with (s := 0) (acc := []) (n := T); [|reflexivity|].
    - intros acc [ts [coms tapes]] L (Et & Hc & Ht & Fc & Ft). cbn [fst snd] in Et, Hc, Ht. cbv beta. apply sim_same. intros master _.
      cbn [fst snd].
      pose proof (sign_setup_sim H I u16_parties salt (length acc) master coms tapes _ _ ltac:(lia) Hc Ht) as S1.
      unfold sim in S1 |- *. destruct (sign_setup H I salt (length acc) master) as [x|e|r|]; auto.
      + destruct S1 as ([t' [coms' tapes']] & E1 & E2 & L1 & L2 & H1 & H2). rewrite E1. cbn [bind]. eexists. split; [reflexivity|].
        unfold s_setups. cbn [fst snd] in *. rewrite !map_app. cbn [map]. split; [rewrite E2, Et; reflexivity|].
        split; [apply holds_snoc; [rewrite map_length; exact H1|exact L1]|]. split; [apply holds_snoc; [rewrite map_length; exact H2|exact L2]|].
        split; apply Forall_snoc; assumption.
      + rewrite S1. reflexivity.
      + rewrite S1. reflexivity.
    - split; [reflexivity|]. cbn [map fst snd]. repeat (split; [apply mat_new|]). auto. }
  intros setup [trees [coms tapes]] _ (Ls & (Etr & Hc & Ht & Fc & Ft)). cbn [fst snd app] in *. cbv beta iota zeta. subst trees.
  assert (Lc : length (map (fun x : tree * list bytes * list bytes => snd (fst x)) setup) = T) by (rewrite map_length; exact Ls).
  assert (Lt : length (map snd setup) = T) by (rewrite map_length; exact Ls).
  (* executions of AES *)
  eapply sim_bind.
  { apply (sim_loop s_phases1) with (s := 0) (acc := []) (n := T); [|reflexivity|].
    - intros acc [[kds tds] h] L (Ek & Etd & ((fk & Hk) & Hs & Htt & Hb & F1 & F2 & F3)). cbv beta iota.
      rewrite (get_ok (map snd setup) (length acc) []) by (unfold bytes in *; lia). cbn [bind].
      assert (S1 := sign_phase1_sim I HI (length acc) ltac:(lia) (fst kp) (snd (fst sv)) pt tapes (nth (length acc) (map snd setup) []) h _ _ _ _
        (mat_len T n _ Lt Ft (length acc) ltac:(lia)) (fun p Hp => mat_get _ _ _ _ _ _ Ht Lt (length acc) p ltac:(lia) Hp) Hk Htt Hs Hb).
      unfold sim in S1 |- *. destruct (sign_phase1 I (fst kp) (snd (fst sv)) pt (nth (length acc) (map snd setup) [])) as [x|e|r|]; auto.
      + destruct S1 as ([[kd td] h'] & E1 & E2 & L1 & L2 & L3 & Hk' & Hs' & Ht' & Hb'). rewrite E1. cbn [bind]. eexists. split; [reflexivity|].
        cbn [fst snd] in *. injection E2 as -> ->. unfold s_phases1, phases1. rewrite !map_app. cbn [map fst snd]. split; [congruence|]. split; [congruence|]. split; [exact Hk'|].
        rewrite !map_length in Hs', Ht', Hb' |- * || idtac.
        split; [apply holds_snoc; [rewrite !map_length; exact Hs'|exact L1]|]. split; [apply holds_snoc; [rewrite !map_length; exact Ht'|exact L2]|].
        split; [apply holds_snoc; [rewrite !map_length; exact Hb'|exact L3]|]. repeat split; apply Forall_snoc; assumption.
      + rewrite S1. reflexivity.
      + rewrite S1. reflexivity.
    - split; [reflexivity|]. split; [reflexivity|]. apply shares_new. }
  intros ph1 [[kds tds] h] _ (Lp & (Ek & Etd & (_ & Hs & Htt & Hb & F1 & F2 & F3))). cbn [app] in *. cbv beta iota zeta. subst kds tds.
  rewrite map_map in Hs, Htt, Hb, F1, F2, F3. cbn [fst snd] in Hs, Htt, Hb, F1, F2, F3.
  unfold phase_1_commitment. rewrite <- bind_assoc.
  rewrite (phase_1_ctx_eq _ _ _ _ _ _ _ (map (fun x : tree * list bytes * list bytes => snd (fst x)) setup) (map r1_bcast ph1) _ _ (conj Lc Fc) (conj (eq_trans (map_length r1_bcast ph1) Lp) F3) Hc Hb).
  apply sim_same. intros ctx1 _. cbn [bind]. apply sim_same. intros rss _. apply sim_same. intros pre1 _. apply sim_same. intros pre2 _.
  apply sim_same. intros ll _. apply sim_same. intros lsq _. apply sim_same. intros prods _.
  (* shares of the polynomials *)
  eapply sim_bind.
  { apply sim_mapM_eq. intros rep Hrep. apply in_seq in Hrep. apply sim_same. intros rs _.
    rewrite (get_ok ph1 rep (mkRep1 [] [] [] [] [] [])) by lia. cbn [bind].
    rewrite (get_ok (map snd setup) rep []) by (unfold bytes in *; lia). cbn [bind].
    rewrite (mat_row _ _ _ _ _ _ Hs), (mat_row _ _ _ _ _ _ Htt), (mat_row _ _ _ _ _ _ Ht) by (try assumption; rewrite ?map_length; try exact Lp; lia). cbn [bind].
    pose proof (map_nth (fun x => r1_s x) ph1 (mkRep1 [] [] [] [] [] []) rep) as M1. pose proof (map_nth (fun x => r1_t x) ph1 (mkRep1 [] [] [] [] [] []) rep) as M2.
    cbn [r1_s r1_t] in M1, M2. unfold bytes in *. rewrite M1, M2. apply sim_refl. }
  intros ph3 ph3' _ <-. apply sim_same. intros h2 _. apply sim_same. intros Rs _.
  (* shares of a, b and c *)
  eapply sim_bind.
  { apply (sim_loop phases5) with (s := 0) (acc := []) (n := T); [|reflexivity|apply phases5_new].
    intros acc [[opened cs] [a b]] L HP. pose proof HP as (Eo & Ec & Ha & Hb5 & F5). cbn [fst snd] in Ha, Hb5. cbv beta iota.
    apply sim_same. intros R _. apply sim_same. intros p3 _.
    pose proof (sign_phase5_sim I c (length acc) ltac:(lia) pre1 pre2 R p3 a b _ _ Ha Hb5) as S5.
    unfold sim in S5 |- *. destruct (sign_phase5 I c pre1 pre2 R p3) as [x|e|r|]; auto.
    - destruct S5 as ([[o cs'] ab'] & E5 & R5). rewrite E5. cbn [bind]. eexists. split; [reflexivity|].
      exact (phases5_step acc opened cs (a, b) x (o, cs', ab') ltac:(lia) HP R5).
    - rewrite S5. reflexivity.
    - rewrite S5. reflexivity. }
  intros ph5 [[opened cs] ab] _ (L5 & (Eo & Ec & Ha & Hb5 & F5)). cbn [app] in *. cbv beta iota zeta. subst opened cs.
  unfold phase_3_commitment. rewrite <- bind_assoc.
  rewrite (phase_3_ctx_eq _ _ _ (map snd ph5) (fst ab) (snd ab) _ _ (conj (eq_trans (map_length snd ph5) L5) F5) Ha Hb5).
  apply sim_same. intros ctx3 _. cbn [bind]. apply sim_same. intros missing Emis. apply sim_same. intros reveals _.
  assert (Hmis : forall rep mi, get missing rep = Ok mi -> mi < n).
  { match type of Emis with phase_3_expand _ _ _ _ ?h3 = _ => destruct (phase_3_outcome H I ltac:(pose proof (pr_parties I HI); lia) fuel garb h3) as [E|(l & E & _ & F & _)]; [congruence|] end.
    assert (l = missing) by congruence. subst l. intros rep mi E'. apply get_inv in E' as [E' _]. rewrite Forall_forall in F. apply F. eapply nth_error_In. exact E'. }
  eapply sim_bind; [|intros proofs proofs' _ <-; apply sim_refl].
  apply sim_mapM_eq. intros rep Hrep. apply in_seq in Hrep. apply sim_same. intros mi Emi. pose proof (Hmis _ _ Emi) as Hmi.
  rewrite (mat_get _ _ _ _ _ _ Hc Lc rep mi) by lia. rewrite (get_ok (map (fun x : tree * list bytes * list bytes => snd (fst x)) setup) rep []) by (unfold bytes in *; lia). cbn [bind].
  pose proof (mat_len T n _ Lc Fc rep ltac:(lia)) as Lrow.
  rewrite (get_ok (nth rep (map (fun x : tree * list bytes * list bytes => snd (fst x)) setup) []) mi []) by (unfold bytes in *; lia). cbn [bind].
  apply sim_same. intros com _. apply sim_same. intros rv _. rewrite !get_map. rewrite (get_ok ph1 rep (mkRep1 [] [] [] [] [] [])) by lia. cbn [bind].
  apply sim_same. intros p3 _. destruct (get ph5 rep) as [p5|e|r|]; cbn [bind]; apply sim_refl || exact Logic.I.
Qed.
End Body.

Theorem verify_sim H fuel garb st I pk sig msg : proper I -> (forall r, snd (verify H fuel garb st I pk sig msg) <> UB r) ->
  m_verify H fuel garb st I pk sig msg = verify H fuel garb st I pk sig msg.
Proof.
  intros HI. unfold m_verify, verify, with_field. destruct (st_init st (lambda I)) as [st' r]. destruct st' as [c|], r as [[]|e|u|]; try reflexivity.
  cbn [snd]. intros HU. f_equal. apply sim_eq_iff; [apply verify_body_sim; exact HI|exact HU].
Qed.
Theorem sign_sim H fuel garb st I kp msg : proper I -> (forall r, snd (sign H fuel garb st I kp msg) <> UB r) ->
  m_sign H fuel garb st I kp msg = sign H fuel garb st I kp msg.
Proof.
  intros HI. unfold m_sign, sign, with_field. destruct (st_init st (lambda I)) as [st' r]. destruct st' as [c|], r as [[]|e|u|]; try reflexivity.
  cbn [snd]. intros HU. f_equal. apply sim_eq_iff; [apply sign_body_sim; exact HI|exact HU].
Qed.
