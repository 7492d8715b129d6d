(** The runs used as examples in PropOnline: a hash function whose every output byte is 255. *)
From Coq Require Import Arith NArith ZArith List Bool Lia.
From Verif Require Import Prelude FieldModel FieldSpec FieldApi FieldLin PolyModel PolyProofs FieldSig Gf8 Instances HashModel TreeModel TreeSpec TreeProofs TreeApi TreeRev AesSpec AesModel AesBase AesApi AesShares BanquetModel ContainerModel ListSum BanquetHash BanquetPure BanquetPoly BanquetSign BanquetVerify BanquetCtx BanquetRun BanquetApi SignFacts ChallengeFacts TapeFacts HashFacts Serialize SerialFacts ShareFacts Forge SigSpec VerifyTree VerifyFacts VerifyOutcome AcceptFacts AlterFacts VerifyCases ExtractSpec ExtractPoly ExtractFacts ExtractApi FreeSpec OnlineSpec OnlineFacts HonestSpec HonestFacts HonestOpen SoundSpec OnlineApi PropSign PropHonest WrongKey ZeroKey KeygenBad PropWrong.
Import ListNotations.

(** an honest signature *)
Lemma honest_run : regular I1 /\ exists c pt ct sig X fuel, init_extension_field (lambda I1) = Ok c /\ str (2 * pt_size I1) (pt ++ ct) /\ 1 <= fuel /\
  (forall garb st, snd (verify ones fuel garb st I1 (pt ++ ct) sig []) = Ok true) /\ sig_shape I1 sig /\ is_transcript ones I1 c (pt ++ ct) sig X /\
  forall e, e < num_rounds I1 ->
    (forall p, p < num_parties I1 -> digest ones I1 (com_input (s_salt sig) e p (x_node (X e) (first_leaf (num_parties I1) + p))) = x_com (X e) p) /\
    evaluation ones I1 c (s_salt sig) (slice (pt ++ ct) 0 (pt_size I1)) e (pf_of sig e) (x_coef (X e)) (x_point (X e)) (fun p => x_node (X e) (first_leaf (num_parties I1) + p)) (X e) /\
    secret_key_for I1 (pt ++ ct) (all_key I1 (X e)).
Proof.
  destruct C71_case as (B & c & key & pt & ct & s & t & Hc & Hk & Hp & Lct & EA & PR). split; [exact B|]. destruct (PR []) as (sig & X & P).
  destruct (honest_sig ones I1 c B Hc key pt ct s t [] sig X Hk Hp EA P) as (SS & TR & AC & Q). pose proof (inst_with I1 c B Hc) as OK.
  pose proof (key_ok_of I1 c _ OK key pt ct s t Hk Hp EA) as KO.
  assert (EC : aes_n (nk_of I1) key pt = Some ct) by (rewrite (aes_same _ _ _ (inst_aes_in I1 c _ key pt OK Hk Hp)), (ko_run _ _ _ _ _ _ _ KO); reflexivity).
  pose proof (BanquetRun.ct_str I1 c _ OK key pt ct s t KO) as Hct.
  destruct (api_returned ones I1 c key pt ct ct s t [] B Hc Hk Hp Lct EA sig X P) as (f0 & R0).
  assert (S1 : slice (pt ++ ct) 0 (pt_size I1) = pt) by (unfold slice; rewrite skipn_O, firstn_app, (proj1 Hp), Nat.sub_diag, firstn_O, app_nil_r; apply firstn_all2; rewrite (proj1 Hp); apply le_n).
  exists c, pt, ct, sig, X, (1 + f0). split; [exact Hc|]. split; [split; [rewrite app_length, (proj1 Hp), Lct; lia|apply Forall_app; split; [apply Hp|apply Hct]]|]. split; [lia|]. split; [|split; [exact SS|split; [exact TR|]]].
  - intros garb st. specialize (R0 f0 (fun _ => 0%N) None (le_n _)). destruct (sign ones f0 (fun _ => 0%N) None I1 (key, pt ++ ct) []) as [st' r] eqn:ES. cbn [snd] in R0. subst r.
    apply (sign_accepted ones I1 c _ OK key pt ct Hk Hp EC f0 _ None [] sig st' ES). lia.
  - intros e He. rewrite S1. destruct (Q e He) as (Q1 & Q2 & _ & Q3 & _). split; [exact Q1|]. split; [exact Q2|]. rewrite Q3.
    split; [apply Hk|]. split; [apply Hk|]. exists pt. split; [apply Hp|]. split; [apply Hp|]. f_equal. rewrite (proj1 (proj2 (proj2 (key_facts I1 c _ OK _ _ _ _ _ KO)))).
    assert (NK : key_size (i_aes I1) / 4 = nk_of I1) by reflexivity. rewrite NK. reflexivity.
Qed.

Lemma forall_dec (P : nat -> Prop) k : (forall i, i < k -> P i \/ ~ P i) -> (exists i, i < k /\ P i) \/ forall i, i < k -> ~ P i.
Proof.
  induction k as [|k IH]; intros D; [right; intros i Hi; lia|]. destruct IH as [(i & Hi & Q)|Q]; [intros i Hi; apply D; lia|left; exists i; split; [lia|exact Q]|].
  destruct (D k ltac:(lia)) as [Z|Z]; [left; exists k; split; [lia|exact Z]|]. right. intros i Hi. destruct (Nat.eq_dec i k) as [->|Ne]; [exact Z|apply Q; lia].
Qed.
Lemma ones_digest x y : digest ones I1 x = digest ones I1 y.
Proof. reflexivity. Qed.
(** a signature for a public key that does not belong to the key: it is accepted, because all inputs collide, and a party deviates *)
Lemma deviate_run : exists c pk sig X Y fuel, init_extension_field (lambda I1) = Ok c /\ str (2 * pt_size I1) pk /\ 1 <= fuel /\
  (forall garb st, snd (verify ones fuel garb st I1 pk sig []) = Ok true) /\ sig_shape I1 sig /\ is_transcript ones I1 c pk sig X /\
  forall e, e < num_rounds I1 ->
    (forall p, p < num_parties I1 -> digest ones I1 (com_input (s_salt sig) e p (x_node (Y e) (first_leaf (num_parties I1) + p))) = x_com (X e) p) /\
    evaluation ones I1 c (s_salt sig) (slice pk 0 (pt_size I1)) e (pf_of sig e) (x_coef (X e)) (x_point (X e)) (fun p => x_node (Y e) (first_leaf (num_parties I1) + p)) (Y e) /\
    exists p, p < num_parties I1 /\ deviates I1 (X e) (Y e) p.
Proof.
  destruct C61_case as (B & key & pt & ct & Hk & Hp & Hct & NZ & Ne & SG). destruct I1_field as [c Hc]. pose proof (inst_with I1 c B Hc) as OK.
  destruct (aes_n (nk_of I1) key pt) as [ct0|] eqn:EC; [|exfalso; apply NZ; apply (aes_none _ _ _ (inst_aes_in I1 c _ _ _ OK Hk Hp)); exact EC].
  destruct (valid_key I1 c _ key pt ct0 OK Hk Hp EC) as (s & t & KO).
  assert (EA : aes_with_sbox_output (key_size (i_aes I1)) key pt = Ok ((s, t), Some ct0)) by (rewrite (save_ok I1 c _ OK key pt Hk Hp); f_equal; exact (ko_run _ _ _ _ _ _ _ KO)).
  destruct (SG (fun _ => 0%N) None []) as [sig ES]. destruct (sign ones 1 (fun _ => 0%N) None I1 (key, pt ++ ct) []) as [st' r] eqn:EE. cbn [snd] in ES. subst r.
  destruct (C71_signature ones I1 c key pt ct0 ct s t [] B Hc Hk Hp (proj1 Hct) EA _ _ _ _ _ EE) as [Y PR].
  destruct (any_shape ones I1 c _ OK key pt ct0 ct Hk Hp EC (proj1 Hct) 1 _ None [] sig st' EE) as (_ & SS & _).
  assert (Hpk : str (2 * pt_size I1) (pt ++ ct)) by (split; [rewrite app_length, (proj1 Hp), (proj1 Hct); lia|apply Forall_app; split; [apply Hp|apply Hct]]).
  assert (S1 : slice (pt ++ ct) 0 (pt_size I1) = pt) by (unfold slice; rewrite skipn_O, firstn_app, (proj1 Hp), Nat.sub_diag, firstn_O, app_nil_r; apply firstn_all2; rewrite (proj1 Hp); apply le_n).
  assert (S2 : slice (pt ++ ct) (pt_size I1) (pt_size I1) = ct) by (unfold slice; rewrite skipn_app, (proj1 Hp), Nat.sub_diag, skipn_O, (skipn_all2 pt) by (rewrite (proj1 Hp); apply le_n); apply firstn_all2; rewrite (proj1 Hct); apply le_n).
  destruct (regular_pow2 I1 B) as (k0 & HP & Hk8). pose proof (regular_mm I1 B) as MM.
  assert (PE : forall e, e < num_rounds I1 -> elt (lambda I1) (x_point (Y e))) by (intros e He; apply (pr_point_E ones I1 c _ k0 OK HP Hk8 key pt ct s t [] sig Y PR e He)).
  assert (OUT : forall garb, exists b, verify_body ones I1 c 1 garb (pt ++ ct) sig [] = Ok b).
  { intros garb. destruct (body_cases ones I1 c _ k0 OK HP Hk8 sig (pt ++ ct) SS Hpk 1 garb [] (le_n 1)) as [[_ [k F]]|[_ [[_ (e & He & F)]|[[b E] _]]]]; [| |exists b; exact E].
    - exfalso. specialize (F 0 (le_n 1)). unfold forbidden in F. apply existsb_exists in F. destruct F as (R & Hin & EQ). apply N.eqb_eq in EQ. subst R.
      exact (allowed_255 c (h2_of ones I1 sig) ((k + 0) * lambda I1) Hc (points_incl _ _ _ Hin)).
    - exfalso. apply F. rewrite (hr_reveal (pr_reps PR e He)). cbn [snd]. exact (hr_hidden (pr_reps PR e He)). }
  destruct (OUT (fun _ => 0%N)) as [b0 E0].
  destruct (acceptance ones I1 c B Hc 1 (fun _ => 0%N) None (pt ++ ct) sig [] b0 SS Hpk (le_n 1)) as [[X TR] _]; [rewrite (snd_verify ones I1 c Hc); exact E0|].
  assert (AC : accepts ones I1 c (pt ++ ct) [] sig X).
  { constructor; [etransitivity; [apply ones_digest|symmetry; exact (pr_h1 PR)]|etransitivity; [apply ones_digest|symmetry; exact (pr_h3 PR)]|]. intros e He.
    apply (opened ones I1 c _ k0 OK HP Hk8 MM key pt ct0 s t KO _ _ _ _ e (pf_of sig e) (Y e) (pr_reps PR e He) (pf_shape I1 sig SS e He) (PE e He)). }
  exists c, (pt ++ ct), sig, X, Y, 1. split; [exact Hc|]. split; [exact Hpk|]. split; [lia|]. split; [|split; [exact SS|split; [exact TR|]]].
  - intros garb st. rewrite (snd_verify ones I1 c Hc). destruct (OUT garb) as [b E]. rewrite E. f_equal.
    apply (proj1 (body_iff ones I1 c _ k0 OK HP Hk8 sig (pt ++ ct) SS Hpk 1 garb [] X b (le_n 1) E TR)). exact AC.
  - intros e He. rewrite S1. pose proof (pr_reps PR e He) as HR. pose proof (tr_reps _ _ _ _ _ _ TR e He) as RO.
    assert (XC : x_coef (X e) = x_coef (Y e)) by (rewrite (ro_coef _ _ _ _ _ _ _ _ _ _ _ RO), (hr_coef HR); reflexivity).
    assert (XP : x_point (X e) = x_point (Y e)).
    { destruct (tr_points _ _ _ _ _ _ TR) as [M EM]. destruct (pr_points PR) as [M' EM'].
      pose proof (filter_prefix (fun R => negb (forbidden I1 c R)) (candidate ones I1 sig) M M') as F. rewrite <- EM, <- EM', !length_map_seq in F. specialize (F eq_refl).
      assert (W : nth e (map (fun e => x_point (X e)) (seq 0 (num_rounds I1))) 0%N = nth e (map (fun e => x_point (Y e)) (seq 0 (num_rounds I1))) 0%N) by (rewrite F; reflexivity). rewrite !nth_map_seq in W by exact He. exact W. }
    split; [|split].
    + intros p Hp'. rewrite (ro_com _ _ _ _ _ _ _ _ _ _ _ RO p Hp'). destruct (Nat.eqb_spec p (x_hidden (X e))) as [_|_]; [|reflexivity]. rewrite (hr_C HR).
      assert (Hh : x_hidden (Y e) < num_parties I1) by (rewrite (hr_hidden HR); exact (hidden_lt ones I1 c B Hc sig e)).
      rewrite (hr_com HR _ Hh). apply ones_digest.
    + rewrite XC, XP. exact (honest_eval ones I1 c key pt s t _ _ _ _ e (pf_of sig e) (Y e) HR).
    + destruct (forall_dec (deviates I1 (X e) (Y e)) (num_parties I1)) as [Q|Q]; [intros p _; apply (deviates_dec I1 X e (Y e) p)|exact Q|]. exfalso.
      destruct (sum_aes ones I1 c _ k0 OK HP Hk8 MM key pt ct0 s t KO _ _ _ _ e (pf_of sig e) (Y e) HR (pf_shape I1 sig SS e He)) as [SA _].
      pose proof (ro_cipher _ _ _ _ _ _ _ _ _ _ _ RO) as RC. rewrite S2 in RC. apply Ne. rewrite <- RC.
      transitivity (xall (pt_size I1) (map (x_out (Y e)) (seq 0 (num_parties I1)))).
      * f_equal. apply map_seq_ext. intros p Hp'. destruct (list_eq_dec N.eq_dec (x_out (X e) p) (x_out (Y e) p)) as [Z|Z]; [exact Z|]. destruct (Q p ltac:(lia)). left. exact Z.
      * rewrite SA. rewrite (proj1 (proj2 (proj2 (key_facts I1 c _ OK _ _ _ _ _ KO)))). unfold encryption. reflexivity.
Qed.
