(** The theorems of PropExtract in the form they are stated there, and the run used as an example. *)
From Coq Require Import Arith NArith ZArith List Bool Lia.
From Verif Require Import Prelude FieldModel FieldSpec FieldApi FieldLin PolyModel PolyProofs FieldSig Gf8 Instances HashModel TreeModel TreeSpec AesSpec AesModel AesBase AesApi AesShares BanquetModel ContainerModel ListSum BanquetHash BanquetPure BanquetPoly BanquetVerify BanquetCtx BanquetRun BanquetApi SignFacts ChallengeFacts TapeFacts HashFacts Serialize SerialFacts ShareFacts KeygenBad PropSign Forge SigSpec VerifyTree VerifyFacts VerifyOutcome AcceptFacts AlterFacts VerifyCases ExtractSpec ExtractPoly ExtractFacts FreeSpec.
Import ListNotations.

Section Api.
Variables (H H' : oracle) (I : instance) (c : fctx).
Hypothesis HB : regular I.
Hypothesis Hc : init_extension_field (lambda I) = Ok c.
Notation n := (num_parties I).
Hypothesis DS : seed_size I + 36 <> digest_size I.
Lemma sizes_ok : m1 I * m2 I = num_sboxes (i_aes I) /\ seed_size I + 36 <> digest_size I /\ 1 <= num_rounds I.
Proof.
  split; [exact (regular_mm I HB)|]. split; [exact DS|exact (rg_rounds _ HB)].
Qed.
Lemma extraction fuel fuel' garb garb' st st' pk msg sig sig' :
  sig_shape I sig -> sig_shape I sig' -> str (2 * pt_size I) pk -> 1 <= fuel -> 1 <= fuel' ->
  snd (verify H fuel garb st I pk sig msg) = Ok true -> snd (verify H' fuel' garb' st' I pk sig' msg) = Ok true ->
  s_h1 sig = s_h1 sig' -> s_h3 sig = s_h3 sig' -> (forall v m i, m <> s_h3 sig -> H' v m i = H v m i) ->
  (exists X, is_transcript H I c pk sig X) /\ (exists X', is_transcript H' I c pk sig' X') /\
  forall X X' e, is_transcript H I c pk sig X -> is_transcript H' I c pk sig' X' -> e < num_rounds I -> hidden_of H I sig e <> hidden_of H' I sig' e ->
    fork_collision H H' I pk msg sig sig' X X' \/
    ((secret_key_for I pk (joint_key I (X e) (X' e)) \/
      bad_coefs I c (x_coef (X e)) (joint_in I (X e) (X' e)) (joint_inv I (X e) (X' e)) \/
      bad_point I c (x_coef (X e)) (joint_in I (X e) (X' e)) (joint_inv I (X e) (X' e)) (joint_tape I (X e) (X' e)) (joint_delta (X e) (pf_of sig e) (pf_of sig' e)) (x_point (X e))) /\
     s_salt sig = s_salt sig' /\
     forall p, p < n ->
       x_com (X e) p = digest H I (com_input (s_salt sig) e p (joint_seed I (X e) (X' e) p)) /\
       joint (X e) (X' e) x_tape p = stream H (2 * seed_size I =? 32) (joint_seed I (X e) (X' e) p ++ s_salt sig ++ le16 e ++ le16 p) 0 (tape_size I)).
Proof.
  intros SS SS' Hpk Hf Hf' V V' E1 E3 AG. destruct (acceptance H I c HB Hc fuel garb st pk sig msg true SS Hpk Hf V) as [A _]. destruct (acceptance H' I c HB Hc fuel' garb' st' pk sig' msg true SS' Hpk Hf' V') as [A' _].
  split; [exact A|]. split; [exact A'|]. intros X X' e TR TR' He NH. destruct (regular_pow2 I HB) as (k0 & HP & Hk8). destruct (regular_inst_ok I HB) as [c' OK].
  assert (c' = c) as -> by (pose proof (io_field _ _ _ OK) as Z; rewrite Hc in Z; injection Z as ->; reflexivity).
  rewrite (snd_verify H I c Hc) in V. rewrite (snd_verify H' I c Hc) in V'. destruct sizes_ok as (MM & _ & T1).
  destruct (body_iff H I c _ k0 OK HP Hk8 sig pk SS Hpk fuel garb msg X true Hf V TR) as [W IDX]. destruct (body_iff H' I c _ k0 OK HP Hk8 sig' pk SS' Hpk fuel' garb' msg X' true Hf' V' TR') as [W' IDX'].
  assert (NX : x_hidden (X e) <> x_hidden (X' e)).
  { rewrite (ro_hidden _ _ _ _ _ _ _ _ _ _ _ (tr_reps _ _ _ _ _ _ TR e He)), (ro_hidden _ _ _ _ _ _ _ _ _ _ _ (tr_reps _ _ _ _ _ _ TR' e He)). exact NH. }
  destruct (extract H H' I c _ k0 OK HP Hk8 MM DS T1 sig sig' pk msg X X' Hpk SS SS' TR TR' (proj1 W eq_refl) (proj1 W' eq_refl) E1 E3 AG e He NX) as [Q|Q]; [left; exact Q|].
  destruct (seeds_known H H' I c _ k0 OK HP Hk8 MM DS T1 sig sig' pk msg X X' SS SS' TR TR' (proj1 W eq_refl) (proj1 W' eq_refl) E1 IDX' AG e He NX) as [Z|[Z1 Z2]]; [left; exact Z|].
  right. split; [exact Q|]. split; [exact Z1|exact Z2].
Qed.
End Api.

(** few coefficients and few points are bad *)
Section Few.
Variables (I : instance) (c : fctx).
Hypothesis HB : regular I.
Hypothesis Hc : init_extension_field (lambda I) = Ok c.
Notation lam := (lambda I).
Notation E := (elt lam).
Notation M1 := (m1 I).
Notation M2 := (m2 I).
Notation sb := (num_sboxes (i_aes I)).
Notation H0 := (horner gadd (gmul c)).
Let D (s t : bytes) (i : nat) : N := gadd (gmul c (lift c (nth i s 0%N)) (lift c (nth i t 0%N))) 1%N.
Lemma D_E s t i : E (D s t i).
Proof. apply (E_add lam c Hc); [apply (E_mul lam c Hc)|apply (E_1 lam c Hc)]. Qed.
Lemma D_nz s t i : is_bytes s -> is_bytes t -> ~ right_pair s t i -> D s t i <> 0%N.
Proof.
  intros Bs Bt NR Z. apply NR. unfold right_pair. unfold D, gadd in Z. apply N.lxor_eq in Z.
  assert (A : (nth i s 0 < 256)%N) by (apply is_bytes_nth; exact Bs). assert (B : (nth i t 0 < 256)%N) by (apply is_bytes_nth; exact Bt).
  destruct (api_lift_hom lam c Hc) as (_ & L1 & L). destruct (L _ _ A B) as (_ & _ & LM & _). rewrite (fmul_gf8 _ _ A B) in *.
  rewrite <- (LM (gf8_mul (nth i s 0%N) (nth i t 0%N))) in Z by (apply aes_product_iff; auto). rewrite <- L1 in Z.
  destruct (L (gf8_mul (nth i s 0%N) (nth i t 0%N)) 1%N) as (_ & _ & _ & LI); [apply (gf8_mul_spec _ _ A B)|reflexivity|]. apply LI. exact Z.
Qed.
Lemma few_coefs s t i rs rs' : is_bytes s -> is_bytes t -> i < sb -> ~ right_pair s t i ->
  length rs = M1 -> length rs' = M1 -> Forall E rs -> Forall E rs' -> (forall j, j <> i mod M1 -> nth j rs 0%N = nth j rs' 0%N) ->
  bad_coefs I c rs s t -> bad_coefs I c rs' s t -> rs = rs'.
Proof.
  intros Bs Bt Hi NR L L' Er Er' Same [_ B] [_ B']. pose proof (regular_mm I HB) as MM. destruct (regular_inst_ok I HB) as [c' OK]. pose proof (io_m1 _ _ _ OK) as M1p.
  assert (c' = c) as -> by (pose proof (io_field _ _ _ OK) as Z; rewrite Hc in Z; injection Z as ->; reflexivity).
  set (j := i mod M1) in *. set (k := i / M1). assert (Hj : j < M1) by (apply Nat.mod_upper_bound; lia).
  assert (Ei : j + M1 * k = i) by (unfold j, k; rewrite Nat.add_comm; symmetry; apply Nat.div_mod; lia). assert (Hk : k < M2) by nia.
  specialize (B k Hk). specialize (B' k Hk). unfold error in B, B'.
  change (gsum M1 (fun j => gmul c (nth j rs 0%N) (D s t (j + M1 * k))) = 0%N) in B. change (gsum M1 (fun j => gmul c (nth j rs' 0%N) (D s t (j + M1 * k))) = 0%N) in B'.
  assert (EN : forall l q, Forall E l -> E (nth q l 0%N)) by (intros; apply (E_nth lam c Hc); assumption).
  assert (Z : gsum M1 (fun q => gmul c (D s t (q + M1 * k)) (gadd (nth q rs 0%N) (nth q rs' 0%N))) = 0%N).
  { transitivity (N.lxor (gsum M1 (fun j => gmul c (nth j rs 0%N) (D s t (j + M1 * k)))) (gsum M1 (fun j => gmul c (nth j rs' 0%N) (D s t (j + M1 * k))))); [|rewrite B, B'; reflexivity].
    rewrite <- gsum_add. apply gsum_ext. intros q Hq. rewrite (g_distr_r lam c Hc) by (try apply D_E; apply EN; assumption). rewrite !(g_mul_comm c (D _ _ _)). reflexivity. }
  rewrite (gsum_one M1 _ j Hj) in Z by (intros q _ Nq; rewrite (Same q Nq); unfold gadd; rewrite N.lxor_nilpotent; apply (g_mul_0_r lam c Hc)).
  rewrite Ei in Z. apply (mul_eq_0 I c _ OK) in Z; [|apply D_E|apply (E_add lam c Hc); apply EN; assumption|apply D_nz; assumption]. apply N.lxor_eq in Z.
  apply (nth_ext rs rs' 0%N 0%N); [congruence|]. intros q _. destruct (Nat.eq_dec q j) as [->|Nq]; [exact Z|apply Same; exact Nq].
Qed.
(** a polynomial is determined by its values *)
Lemma same_values xs f g y : NoDup xs -> 0 < length xs -> Forall E xs -> length f = length xs -> length g = length xs -> Forall E f -> Forall E g ->
  (forall k, k < length xs -> H0 f (nth k xs 0%N) = H0 g (nth k xs 0%N)) -> E y -> H0 f y = H0 g y.
Proof.
  intros ND Hp Ex Lf Lg Ef Eg Ev Ey. destruct (lagr_exists lam c Hc xs ND Hp Ex) as [pre G]. rewrite <- (lg_value _ _ _ _ G f y Lf Ef Ey), <- (lg_value _ _ _ _ G g y Lg Eg Ey).
  apply gsum_ext. intros k Hk. rewrite Ev by exact Hk. reflexivity.
Qed.
Lemma few_roots Q zs : Forall E Q -> NoDup zs -> Forall E zs -> (forall z, In z zs -> H0 Q z = 0%N) -> (exists y, E y /\ H0 Q y <> 0%N) -> length zs < length Q.
Proof.
  intros EQ ND Ez Hz (y & Ey & Ny). destruct (le_lt_dec (length Q) (length zs)) as [A|A]; [|exact A]. exfalso. apply Ny.
  assert (Q = [] \/ 0 < length Q) as [->|Lp] by (destruct Q; [left; reflexivity|right; cbn; lia]); [reflexivity|].
  set (xs := firstn (length Q) zs). assert (Lx : length xs = length Q) by (apply firstn_length_le; exact A).
  assert (Split : zs = xs ++ skipn (length Q) zs) by (symmetry; apply firstn_skipn). rewrite Split in ND, Ez. apply Forall_app in Ez. destruct Ez as [Ex _].
  assert (NDx : NoDup xs) by (clear -ND; induction xs as [|a l IH]; [constructor|]; cbn [app] in ND; inversion ND; subst; constructor; [intros J; apply H1, in_or_app; left; exact J|apply IH; assumption]).
  transitivity (H0 (repeat 0%N (length Q)) y); [|apply (g_repeat0 lam c Hc); exact Ey].
  apply (same_values xs); rewrite ?Lx, ?repeat_length; auto.
  - apply Forall_forall. intros v J. apply repeat_spec in J. subst. apply (E_0 lam c Hc).
  - intros k Hk. assert (J : In (nth k xs 0%N) xs) by (apply nth_In; lia). rewrite (g_repeat0 lam c Hc) by (rewrite Forall_forall in Ex; apply Ex; exact J).
    apply Hz. rewrite Split. apply in_or_app. left. exact J.
Qed.
Lemma few_points rs s t tp ds zs : NoDup zs -> Forall E zs -> (forall R, In R zs -> bad_point I c rs s t tp ds R) -> length zs <= 2 * M2.
Proof.
  intros ND Ez HZ. destruct zs as [|z zs]; [cbn; lia|]. destruct (HZ z (or_introl eq_refl)) as (Q & (LQ & EQ & S & T & P & PS & PT & PP & VQ) & (k & Hk & NQ) & _).
  destruct (regular_inst_ok I HB) as [c' OK]. assert (c' = c) as -> by (pose proof (io_field _ _ _ OK) as Z; rewrite Hc in Z; injection Z as ->; reflexivity).
  destruct (xs1_ok I c _ OK) as (ND1 & L1 & _). destruct (xs2_ok I c _ OK) as (ND2 & L2 & _). pose proof (xs1E I c _ OK) as E1. pose proof (xs2E I c _ OK) as E2.
  assert (RT : forall R, In R (z :: zs) -> H0 Q R = 0%N).
  { intros R J. assert (ER : E R) by (rewrite Forall_forall in Ez; apply Ez; exact J). destruct (HZ R J) as (Q' & (LQ' & EQ' & S' & T' & P' & PS' & PT' & PP' & VQ') & _ & <-).
    rewrite VQ, VQ' by exact ER. f_equal.
    - apply gsum_ext. intros j Hj. destruct (PS j Hj) as (A1 & A2 & A3 & A4), (PS' j Hj) as (B1 & B2 & B3 & B4), (PT j Hj) as (C1 & C2 & C3 & C4), (PT' j Hj) as (D1 & D2 & D3 & D4). f_equal.
      + apply (same_values (xs1 I c)); auto; try lia. rewrite L1. intros q Hq. unfold xs1. rewrite <- (points_prefix c q (M2 + 1) (2 * M2 + 1) Hq) by lia. destruct (Nat.eq_dec q M2) as [->|Nq]; [rewrite A4, B4; reflexivity|rewrite A3, B3 by lia; reflexivity].
      + apply (same_values (xs1 I c)); auto; try lia. rewrite L1. intros q Hq. unfold xs1. rewrite <- (points_prefix c q (M2 + 1) (2 * M2 + 1) Hq) by lia. destruct (Nat.eq_dec q M2) as [->|Nq]; [rewrite C4, D4; reflexivity|rewrite C3, D3 by lia; reflexivity].
    - destruct PP as (A1 & A2 & A3 & A4), PP' as (B1 & B2 & B3 & B4). apply (same_values (xs2 I c)); auto; try lia. rewrite L2. intros q Hq. unfold xs2.
      destruct (le_lt_dec M2 q) as [G|G]; [|rewrite A3, B3 by exact G; reflexivity]. replace q with (M2 + (q - M2)) by lia. rewrite A4, B4 by lia. reflexivity. }
  pose proof (few_roots Q (z :: zs) EQ ND Ez RT) as W. assert (X : length (z :: zs) < length Q); [|lia]. apply W. exists (nth k (get_first_n_field_elements c (2 * M2 + 1)) 0%N).
  split; [apply (E_nth lam c Hc); exact E2|exact NQ].
Qed.
End Few.

(** An example: digests of inputs that start with 3, as h_3 does, consist of bytes 7, all others of bytes 255; the other hash
    function differs from it on a string of bytes 7 only. *)
Definition two (v : bool) (m : bytes) (i : nat) : N := match m with 3%N :: _ => 7%N | _ => 255%N end.
Definition two' (v : bool) (m : bytes) (i : nat) : N := if list_eq_dec N.eq_dec m (repeat 7%N 32) then 0%N else two v m i.
Lemma str_const (H : oracle) v m o l x : (forall i, H v m i = x) -> (x < 256)%N -> stream H v m o l = repeat x l.
Proof.
  intros Hx Hl. unfold stream. revert o. induction l; intros o; [reflexivity|]. cbn [seq map repeat]. rewrite Hx, N.mod_small by exact Hl. f_equal. apply IHl.
Qed.
Lemma two_str v m o l : stream two v m o l = repeat (match m with 3%N :: _ => 7%N | _ => 255%N end) l.
Proof. apply str_const; [reflexivity|]. destruct m as [|[|[[]|[]|]] ?]; reflexivity. Qed.
Lemma two'_str v m o l : stream two' v m o l = repeat (if list_eq_dec N.eq_dec m (repeat 7%N 32) then 0%N else match m with 3%N :: _ => 7%N | _ => 255%N end) l.
Proof. apply str_const; [reflexivity|]. destruct (list_eq_dec _ _ _); [reflexivity|]. destruct m as [|[|[[]|[]|]] ?]; reflexivity. Qed.
Lemma none_in x c : init_extension_field (lambda I1) = Ok c -> In x [0; 7; 255]%N -> ~ In (from_bytes (repeat x (lambda I1))) (get_first_n_field_elements c (m2 I1)).
Proof.
  intros Ec Hx. injection Ec as <-. destruct Hx as [<-|[<-|[<-|[]]]]; intros X; vm_compute in X; repeat (destruct X as [X|X]; [discriminate X|]); exact X.
Qed.
Lemma run_with (H : oracle) : (forall v m o l, exists x, In x [0; 7; 255]%N /\ stream H v m o l = repeat x l) ->
  exists key pk, keygen 1 I1 ex_rng = Ok (key, pk) /\ str (2 * pt_size I1) pk /\
  forall msg, exists sig, sig_shape I1 sig /\ forall fuel garb st, 1 <= fuel -> snd (verify H fuel garb st I1 pk sig msg) = Ok true.
Proof.
  intros HS. destruct (keygen 1 I1 ex_rng) as [kp| | |] eqn:E; [|exfalso; revert E; vm_compute; discriminate..]. destruct I1_field as [c Ec].
  destruct (key_cases I1 1 ex_rng kp (builtin_regular _ I1_builtin) ex_rng_bytes E) as (c' & key & pt & ct & OK & -> & Hk & Hp & Hct). exists key, (pt ++ ct). split; [reflexivity|]. split.
  { assert (Q : match keygen 1 I1 ex_rng with Ok k => (length (snd k) =? 2 * pt_size I1) && forallb (fun b => b <? 256)%N (snd k) | _ => false end = true) by (vm_compute; reflexivity).
    rewrite E in Q. apply andb_prop in Q. destruct Q as [Q1 Q2]. apply Nat.eqb_eq in Q1. split; [exact Q1|]. apply Forall_forall. intros b Hb. apply N.ltb_lt. exact (proj1 (forallb_forall _ _) Q2 b Hb). }
  intros msg. destruct (sign_returns H I1 c 1 ex_rng (key, pt ++ ct) msg 1 (fun _ => 0%N) None (builtin_regular _ I1_builtin) Ec ex_rng_bytes E (le_n 1)) as [[sig X]|(_ & h2 & k & X)].
  - exists sig. destruct (sign H 1 (fun _ => 0%N) None I1 (key, pt ++ ct) msg) as [st' r] eqn:ES. cbn [snd] in X. subst r. split.
    + apply (sign_shape H I1 c' _ OK key pt ct Hk Hp Hct _ _ _ _ _ _ ES).
    + intros fuel garb st Hf. apply (honest_verify H I1 1 ex_rng (key, pt ++ ct) msg 1 _ _ _ _ (builtin_regular _ I1_builtin) ex_rng_bytes E ES). exact Hf.
  - exfalso. specialize (X 0 (le_n 1)). destruct (HS (digest_size I1 =? 32) h2 ((k + 0) * lambda I1) (lambda I1)) as (x & Jx & Ex). rewrite Ex in X. exact (none_in x c Ec Jx X).
Qed.
Lemma fork_run msg : exists key pk sig sig', keygen 1 I1 ex_rng = Ok (key, pk) /\ str (2 * pt_size I1) pk /\ sig_shape I1 sig /\ sig_shape I1 sig' /\
  (forall fuel garb st, 1 <= fuel -> snd (verify two fuel garb st I1 pk sig msg) = Ok true) /\
  (forall fuel garb st, 1 <= fuel -> snd (verify two' fuel garb st I1 pk sig' msg) = Ok true) /\
  s_h1 sig = s_h1 sig' /\ s_h3 sig = s_h3 sig' /\ s_h1 sig <> s_h3 sig /\ (forall v m i, m <> s_h3 sig -> two' v m i = two v m i) /\
  forall e, hidden_of two I1 sig e = 63 /\ hidden_of two' I1 sig' e = 0.
Proof.
  destruct (run_with two) as (key & pk & EK & Hpk & S).
  { intros v m o l. eexists. split; [|apply two_str]. destruct m as [|[|[[]|[]|]] ?]; cbn; auto. }
  destruct (run_with two') as (key' & pk' & EK' & _ & S').
  { intros v m o l. eexists. split; [|apply two'_str]. destruct (list_eq_dec _ _ _); [cbn; auto|]. destruct m as [|[|[[]|[]|]] ?]; cbn; auto. }
  rewrite EK in EK'. injection EK' as <- <-. destruct (S msg) as (sig & SS & V). destruct (S' msg) as (sig' & SS' & V'). destruct I1_field as [c Ec].
  assert (HH : forall H s, sig_shape I1 s -> snd (verify H 1 (fun _ => 0%N) None I1 pk s msg) = Ok true -> exists a b, length a <> 31 /\ s_h1 s = digest H I1 (1%N :: a) /\ s_h3 s = digest H I1 (3%N :: b)).
  { intros H s Sh Vs. destruct (acceptance H I1 c (builtin_regular _ I1_builtin) Ec 1 (fun _ => 0%N) None pk s msg true Sh Hpk (le_n 1) Vs) as [[X TX] AX]. pose proof (proj1 (AX X TX) eq_refl) as [A1 A3 _].
    eexists _, _. split; [|split; [symmetry; exact A1|symmetry; exact A3]]. rewrite app_length, (proj1 (ss_salt _ _ Sh)). unfold SALT_SIZE. lia. }
  destruct (HH two sig SS (V 1 _ _ (le_n 1))) as (a & b & La & A1 & A3). destruct (HH two' sig' SS' (V' 1 _ _ (le_n 1))) as (a' & b' & La' & A1' & A3').
  unfold digest in *. rewrite two_str in A1, A3. rewrite two'_str in A1', A3'.
  destruct (list_eq_dec N.eq_dec (1%N :: a') (repeat 7%N 32)) as [Z|_] in A1'; [discriminate Z|]. destruct (list_eq_dec N.eq_dec (3%N :: b') (repeat 7%N 32)) as [Z|_] in A3'; [discriminate Z|].
  change (digest_size I1) with 32 in *.
  exists key, pk, sig, sig'. split; [exact EK|]. split; [exact Hpk|]. split; [exact SS|]. split; [exact SS'|]. split; [exact V|]. split; [exact V'|].
  split; [congruence|]. split; [congruence|]. split; [rewrite A1, A3; discriminate|]. split.
  - intros v m i Nm. unfold two'. rewrite A3 in Nm. destruct (list_eq_dec N.eq_dec m (repeat 7%N 32)); [contradiction|reflexivity].
  - intros e. unfold hidden_of. rewrite A3, A3'. split; reflexivity.
Qed.
