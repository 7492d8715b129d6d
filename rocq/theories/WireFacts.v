(** The code's serialization has the layout of WireSpec.v. *)
From Coq Require Import Arith NArith List Bool Lia.
From Verif Require Import Prelude FieldModel FieldSpec FieldApi Instances HashModel TreeModel AesBase AesShares BanquetModel ContainerModel ListSum BanquetHash BanquetPure BanquetVerify BanquetCtx Serialize BanquetApi SigSpec ChallengeFacts SerialFacts FieldProofs FreeSpec FreeApi WireSpec.
Import ListNotations.

Lemma string_in (a x b : bytes) o w : length a = o -> length x = w -> string_at (a ++ x ++ b) o w x.
Proof.
  intros <- <-. split; [reflexivity|]. intros i Hi. rewrite nth_error_app2 by lia. rewrite nth_error_app1 by lia. f_equal. lia.
Qed.
Lemma string_in_at (a x b : bytes) o k w y : length a = o -> string_at x k w y -> k + w <= length x -> string_at (a ++ x ++ b) (o + k) w y.
Proof.
  intros <- [L S] Hk. split; [exact L|]. intros i Hi. rewrite nth_error_app2 by lia. rewrite nth_error_app1 by lia. rewrite <- S by exact Hi. f_equal. lia.
Qed.
Lemma string_concat (l : list bytes) w i x : (forall y, In y l -> length y = w) -> nth_error l i = Some x -> string_at (concat l) (i * w) w x /\ i * w + w <= length (concat l).
Proof.
  revert i. induction l as [|y l IH]; intros i Hw E; [destruct i; discriminate E|].
  assert (Ly : length y = w) by (apply Hw; left; reflexivity). cbn [concat]. rewrite app_length. destruct i as [|i].
  - injection E as ->. split; [|lia]. apply (string_in [] x (concat l) 0 w eq_refl Ly).
  - destruct (IH i (fun z Hz => Hw z (or_intror Hz)) E) as [S L]. split; [|cbn [Nat.mul]; lia]. destruct S as [L1 S]. split; [exact L1|]. intros j Hj. rewrite <- S by exact Hj.
    rewrite nth_error_app2 by (cbn [Nat.mul]; lia). f_equal. cbn [Nat.mul]. lia.
Qed.
Lemma le_bytes_nth n x i : i < n -> nth_error (le_bytes n x) i = Some (N.modulo (N.div x (2 ^ N.of_nat (8 * i))) 256).
Proof.
  revert x i. induction n as [|n IH]; intros x i Hi; [lia|]. destruct i as [|i]; cbn [le_bytes nth_error].
  - change (2 ^ N.of_nat (8 * 0))%N with 1%N. rewrite N.div_1_r. reflexivity.
  - rewrite IH by lia. do 2 f_equal. replace (N.of_nat (8 * S i)) with (8 + N.of_nat (8 * i))%N by lia. rewrite N.pow_add_r, N.div_div; [reflexivity|discriminate|apply N.pow_nonzero; discriminate].
Qed.

Lemma slice_of_string ser o w x : string_at ser o w x -> slice ser o w = x.
Proof.
  intros [L Q]. revert o x L Q. induction w as [|w IH]; intros o x L Q; [destruct x; [reflexivity|discriminate L]|].
  destruct x as [|b x]; [discriminate L|]. pose proof (Q 0 ltac:(lia)) as S0. rewrite Nat.add_0_r in S0. cbn [nth_error] in S0.
  change (S w) with (1 + w). rewrite slice_app_split. replace (slice ser o 1) with [b].
  - cbn [app]. f_equal. apply IH; [injection L as L; exact L|]. intros i Hi. rewrite <- Nat.add_assoc. exact (Q (1 + i) ltac:(lia)).
  - unfold slice. clear - S0. revert ser S0. induction o; intros [|y ser] S0; try discriminate S0; [injection S0 as ->; reflexivity|]. cbn [skipn]. apply IHo. exact S0.
Qed.
Lemma nth_error_same {A} : forall a b : list A, (forall i, nth_error a i = nth_error b i) -> a = b.
Proof.
  induction a as [|x a IH]; intros [|y b] E; try (pose proof (E 0) as Z; discriminate Z); [reflexivity|].
  pose proof (E 0) as Z. injection Z as ->. f_equal. apply IH. intros i. exact (E (S i)).
Qed.
(** consecutive pieces *)
Lemma slice_pieces {A} (f : A -> bytes) ser w : forall (l : list A) o, (forall i x, nth_error l i = Some x -> slice ser (o + i * w) w = f x) ->
  slice ser o (length l * w) = concat (map f l).
Proof.
  induction l as [|x l IH]; intros o Hl; [reflexivity|]. cbn [length Nat.mul map concat]. rewrite slice_app_split. f_equal.
  - rewrite <- (Hl 0 x eq_refl). f_equal. lia.
  - apply IH. intros i y E. rewrite <- (Hl (S i) y E). f_equal. cbn [Nat.mul]. lia.
Qed.

Section W.
Variables (I : instance) (c : fctx).
Hypothesis HB : regular I.
Hypothesis HI : init_extension_field (lambda I) = Ok c.
Notation lam := (lambda I).
Notation d := (digest_size I).
Notation ks := (key_size (i_aes I)).
Notation sb := (num_sboxes (i_aes I)).
Notation levels := (Nat.log2_up (num_parties I)).

Lemma levels_eq : ceil_log2_nat (num_parties I) = levels.
Proof.
  destruct (regular_inst_ok I HB) as [c' OK]. rewrite (ceil_log2_nat_spec (num_parties I) (inst_n1 _ _ _ OK)); [reflexivity|].
  apply (N.lt_trans _ 65536); [exact (io_N _ _ _ OK)|reflexivity].
Qed.
Lemma small x : elt lam x -> w64 x = x.
Proof.
  intros Hx. apply w64_small. destruct (pr_lambda _ (rg_proper _ HB)) as [L|[L|[L|[L|[]]]]]; rewrite <- L in Hx; apply (N.lt_le_trans _ _ _ Hx); apply N.pow_le_mono_r; lia || discriminate.
Qed.
Lemma elt_bound x : elt lam x <-> (x < 2 ^ N.of_nat (8 * lam))%N.
Proof. unfold elt. replace (N.of_nat (8 * lam)) with (8 * N.of_nat lam)%N by lia. reflexivity. Qed.
Lemma number_string ser o x : number_at ser o lam x <-> elt lam x /\ string_at ser o lam (to_bytes lam x).
Proof.
  unfold number_at. rewrite <- elt_bound. split; intros [Hx S]; (split; [exact Hx|]); pose proof (small x Hx) as W; destruct (api_bytes _ _ HI) as [A _]; destruct (A x Hx) as [L _].
  - split; [exact L|]. intros i Hi. unfold to_bytes. rewrite W, le_bytes_nth by exact Hi. apply S. exact Hi.
  - intros i Hi. destruct S as [_ S]. rewrite S by exact Hi. unfold to_bytes. rewrite W, le_bytes_nth by exact Hi. reflexivity.
Qed.
Lemma enc_len x : elt lam x -> length (to_bytes lam x) = lam.
Proof. destruct (api_bytes _ _ HI) as [A _]. intros Hx. apply A. exact Hx. Qed.

Lemma elems_len l : Forall (elt lam) l -> length (concat (map (to_bytes lam) l)) = length l * lam.
Proof. induction 1; [reflexivity|]. cbn [map concat length Nat.mul]. rewrite app_length, enc_len by assumption. lia. Qed.
Lemma strs_len l w : (forall v : bytes, In v l -> str w v) -> length (concat l) = length l * w.
Proof. induction l; intros Hw; [reflexivity|]. cbn [concat length Nat.mul]. rewrite app_length, IHl by (intros; apply Hw; right; assumption). destruct (Hw a (or_introl eq_refl)) as [-> _]. lia. Qed.
Lemma rep_length_eq : proof_size I = rep_length I.
Proof. unfold proof_size, rep_length. rewrite levels_eq. reflexivity. Qed.
Lemma enc_proof_len p : proof_shape I p -> length (enc_proof I p) = rep_length I.
Proof. intros S. rewrite <- rep_length_eq. apply (pa_len _ _ _ _ (p_proof I c HI (snd (p_reveal p)))). auto. Qed.

(** moving a table into a longer string *)
Lemma string_up a x b o k w y : length a = o -> w + k <= length x -> string_at x k w y -> string_at (a ++ x ++ b) (o + k) w y.
Proof. intros Ha L S. apply string_in_at; [exact Ha|exact S|lia]. Qed.
Lemma number_up a x b o k y : length a = o -> lam + k <= length x -> number_at x k lam y -> number_at (a ++ x ++ b) (o + k) lam y.
Proof. intros Ha L S. apply number_string in S. destruct S as [S1 S2]. apply number_string. split; [exact S1|]. apply string_up; assumption. Qed.
Lemma rep_up a x b o p : length a = o -> length x = rep_length I -> rep_at I x 0 p -> rep_at I (a ++ x ++ b) o p.
Proof.
  intros Ha Lx [Q1 Q2 Q3 Q4 Q5 Q6 Q7 Q8 Q9 Q10 Q11 Q12]. cbn [Nat.add] in *. unfold rep_length in Lx. constructor; try assumption.
  - intros i y E. assert (i < levels) by (rewrite <- Q1; apply nth_error_Some; congruence). apply string_up; [exact Ha| |apply Q2; exact E]. rewrite Lx. nia.
  - apply string_up; [exact Ha|rewrite Lx; nia|exact Q3].
  - rewrite <- !Nat.add_assoc in *. apply string_up; [exact Ha|rewrite Lx; nia|exact Q4].
  - rewrite <- !Nat.add_assoc in *. apply string_up; [exact Ha|rewrite Lx; nia|exact Q5].
  - intros i y E. assert (i < m2 I + 1) by (rewrite <- Q6; apply nth_error_Some; congruence). pose proof (Q7 i y E) as Z. rewrite <- !Nat.add_assoc in *. apply number_up; [exact Ha|rewrite Lx; nia|exact Z].
  - rewrite <- !Nat.add_assoc in *. apply number_up; [exact Ha|rewrite Lx; nia|exact Q8].
  - intros i y E. assert (i < m1 I) by (rewrite <- Q9; apply nth_error_Some; congruence). pose proof (Q10 i y E) as Z. rewrite <- !Nat.add_assoc in *. apply number_up; [exact Ha|rewrite Lx; nia|exact Z].
  - intros i y E. assert (i < m1 I) by (rewrite <- Q11; apply nth_error_Some; congruence). pose proof (Q12 i y E) as Z. rewrite <- !Nat.add_assoc in *. apply number_up; [exact Ha|rewrite Lx; nia|exact Z].
Qed.

Lemma elems_at a l b o k x : length a = o -> Forall (elt lam) l -> nth_error l k = Some x -> number_at (a ++ concat (map (to_bytes lam) l) ++ b) (o + k * lam) lam x.
Proof.
  intros Ha F E. assert (Hx : elt lam x) by (rewrite Forall_forall in F; apply F; apply (nth_error_In _ _ E)). apply number_string. split; [exact Hx|].
  destruct (string_concat (map (to_bytes lam) l) lam k (to_bytes lam x)) as [S L].
  - intros y Hy. apply in_map_iff in Hy. destruct Hy as (z & <- & Hz). apply enc_len. rewrite Forall_forall in F. apply F. exact Hz.
  - apply map_nth_error. exact E.
  - apply string_up; [exact Ha|lia|exact S].
Qed.
Lemma enc_rep p : proof_shape I p -> rep_at I (enc_proof I p) 0 p.
Proof.
  intros [P1 P2 [P3 _] [P4 _] [P5 _] [P6 F6] P7 [P8 F8] [P9 F9]]. rewrite levels_eq in P1.
  pose proof (strs_len _ _ P2) as LS. rewrite P1 in LS. pose proof (elems_len _ F6) as L6. rewrite P6 in L6. pose proof (elems_len _ F8) as L8. rewrite P8 in L8. pose proof (elems_len _ F9) as L9. rewrite P9 in L9.
  pose proof (enc_len _ P7) as L7. unfold enc_proof. set (A := concat (fst (p_reveal p))) in *. set (D := concat (map (to_bytes lam) (p_P_delta p))) in *.
  set (S := concat (map (to_bytes lam) (p_S_at_R p))) in *. set (T := concat (map (to_bytes lam) (p_T_at_R p))) in *. set (R := to_bytes lam (p_P_at_R p)) in *.
  constructor; cbn [Nat.add]; try assumption.
  - intros i x E. destruct (string_concat (fst (p_reveal p)) (seed_size I) i x) as [Z1 Z2]; [intros y Hy; apply P2; exact Hy|exact E|]. fold A in Z1, Z2. apply (string_up [] A _ 0 (i * seed_size I) (seed_size I) x eq_refl); [lia|exact Z1].
  - apply string_in; assumption.
  - rewrite (app_assoc A). apply string_in; [rewrite app_length; lia|assumption].
  - rewrite (app_assoc A), (app_assoc (A ++ p_C p)). apply string_in; [rewrite !app_length; lia|assumption].
  - intros k x E. rewrite (app_assoc A), (app_assoc (A ++ p_C p)), (app_assoc ((A ++ p_C p) ++ p_sk_delta p)). apply elems_at; [rewrite !app_length; lia|assumption|exact E].
  - apply number_string. split; [exact P7|]. rewrite (app_assoc A), (app_assoc (A ++ p_C p)), (app_assoc ((A ++ p_C p) ++ p_sk_delta p)), (app_assoc (((A ++ p_C p) ++ p_sk_delta p) ++ p_t_delta p)).
    apply string_in; [rewrite !app_length; lia|exact L7].
  - intros k x E. replace ((m2 I + 2 + k) * lam) with ((m2 I + 2) * lam + k * lam) by lia. rewrite Nat.add_assoc.
    rewrite (app_assoc A), (app_assoc (A ++ p_C p)), (app_assoc ((A ++ p_C p) ++ p_sk_delta p)), (app_assoc (((A ++ p_C p) ++ p_sk_delta p) ++ p_t_delta p)), (app_assoc ((((A ++ p_C p) ++ p_sk_delta p) ++ p_t_delta p) ++ D)).
    apply elems_at; [rewrite !app_length; lia|assumption|exact E].
  - intros k x E. replace ((m2 I + 2 + m1 I + k) * lam) with ((m2 I + 2 + m1 I) * lam + k * lam) by lia. rewrite Nat.add_assoc.
    rewrite (app_assoc A), (app_assoc (A ++ p_C p)), (app_assoc ((A ++ p_C p) ++ p_sk_delta p)), (app_assoc (((A ++ p_C p) ++ p_sk_delta p) ++ p_t_delta p)), (app_assoc ((((A ++ p_C p) ++ p_sk_delta p) ++ p_t_delta p) ++ D)).
    rewrite (app_assoc (((((A ++ p_C p) ++ p_sk_delta p) ++ p_t_delta p) ++ D) ++ R)). rewrite <- (app_nil_r T). apply elems_at; [rewrite !app_length; lia|assumption|exact E].
Qed.
Lemma encs_at : forall l a o e p, length a = o -> Forall (proof_shape I) l -> nth_error l e = Some p -> rep_at I (a ++ concat (map (enc_proof I) l)) (o + e * rep_length I) p.
Proof.
  induction l as [|q l IH]; intros a o e p Ha F E; [destruct e; discriminate E|]. inversion F as [|x y Fq Fl]; subst x y. cbn [map concat]. destruct e as [|e].
  - injection E as ->. rewrite Nat.add_0_r. apply rep_up; [exact Ha|apply enc_proof_len; exact Fq|apply enc_rep; exact Fq].
  - cbn [Nat.mul]. rewrite Nat.add_assoc. rewrite app_assoc. apply IH; [rewrite app_length, enc_proof_len by exact Fq; lia|exact Fl|exact E].
Qed.
Lemma enc_wire sig : sig_shape I sig -> wire I sig (enc_sig I sig).
Proof.
  intros S. destruct (serialize_ok I c HI sig S) as (_ & L & _). destruct S as [[S1 _] [S2 _] [S3 _] S4 S5]. change SALT_SIZE with 32 in *. constructor; try assumption.
  - rewrite L. unfold sig_size, rep_start. rewrite rep_length_eq. reflexivity.
  - unfold enc_sig. exact (string_in [] _ _ 0 32 eq_refl S1).
  - unfold enc_sig. apply string_in; assumption.
  - unfold enc_sig. rewrite app_assoc. apply string_in; [rewrite app_length; lia|assumption].
  - intros e p E. unfold enc_sig, rep_start. rewrite !app_assoc. apply encs_at; [rewrite !app_length; lia|assumption|exact E].
Qed.

(** conversely the table determines the string *)
Lemma rep_slice ser o p : rep_at I ser o p -> slice ser o (rep_length I) = enc_proof I p.
Proof.
  intros [Q1 Q2 Q3 Q4 Q5 Q6 Q7 Q8 Q9 Q10 Q11 Q12]. unfold enc_proof, rep_length.
  assert (G : forall l o', (forall k x, nth_error l k = Some x -> number_at ser (o' + k * lam) lam x) -> slice ser o' (length l * lam) = concat (map (to_bytes lam) l)).
  { intros l o' Hl. apply slice_pieces. intros k x E. apply slice_of_string. apply (number_string ser _ x). apply Hl. exact E. }
  replace (levels * seed_size I + d + ks + sb + (m2 I + 1 + 1 + 2 * m1 I) * lam) with (levels * seed_size I + (d + (ks + (sb + ((m2 I + 1) * lam + (lam + (m1 I * lam + m1 I * lam))))))) by lia.
  rewrite !slice_app_split. f_equal; [|f_equal; [|f_equal; [|f_equal; [|f_equal; [|f_equal; [|f_equal]]]]]].
  - rewrite <- Q1, (slice_pieces (fun x => x)); [rewrite map_id; reflexivity|]. intros i x E. apply slice_of_string. apply Q2. exact E.
  - apply slice_of_string. exact Q3.
  - apply slice_of_string. exact Q4.
  - apply slice_of_string. exact Q5.
  - rewrite <- Q6. apply G. intros k x E. exact (Q7 k x E).
  - apply slice_of_string. apply (number_string ser _ (p_P_at_R p)). exact Q8.
  - rewrite <- Q9. apply G. intros k x E. pose proof (Q10 k x E) as Z.
    replace (o + levels * seed_size I + d + ks + sb + (m2 I + 1) * lam + lam + k * lam) with (o + levels * seed_size I + d + ks + sb + (m2 I + 2 + k) * lam) by lia. exact Z.
  - rewrite <- Q11. apply G. intros k x E. pose proof (Q12 k x E) as Z. rewrite Q11.
    replace (o + levels * seed_size I + d + ks + sb + (m2 I + 1) * lam + lam + m1 I * lam + k * lam) with (o + levels * seed_size I + d + ks + sb + (m2 I + 2 + m1 I + k) * lam) by lia. exact Z.
Qed.
Lemma wire_enc sig ser : wire I sig ser -> ser = enc_sig I sig.
Proof.
  intros [W1 W2 W3 W4 W5 W6]. unfold enc_sig. assert (E : slice ser 0 (length ser) = ser) by (unfold slice; cbn [skipn]; apply firstn_all).
  rewrite <- E at 1. rewrite W1. unfold rep_start. replace (32 + 2 * d + num_rounds I * rep_length I) with (32 + (d + (d + num_rounds I * rep_length I))) by lia.
  rewrite !slice_app_split. f_equal; [|f_equal; [|f_equal]].
  - apply slice_of_string. exact W2.
  - apply slice_of_string. exact W3.
  - apply slice_of_string. exact W4.
  - rewrite <- W5. apply slice_pieces. intros e p Ep. apply rep_slice. pose proof (W6 e p Ep) as Z. unfold rep_start in Z.
    replace (0 + 32 + d + d + e * rep_length I) with (32 + 2 * d + e * rep_length I) by lia. exact Z.
Qed.
Lemma bytes_of_string ser o w x : is_bytes ser -> string_at ser o w x -> str w x.
Proof. intros B S. split; [apply S|]. rewrite <- (slice_of_string _ _ _ _ S). apply is_bytes_slice. exact B. Qed.
Lemma wire_shape sig ser : is_bytes ser -> wire I sig ser -> sig_shape I sig.
Proof.
  intros B [W1 W2 W3 W4 W5 W6]. constructor; try (eapply bytes_of_string; eassumption). { exact W5. }
  apply Forall_forall. intros p Hp. apply In_nth_error in Hp. destruct Hp as [e Ep]. destruct (W6 e p Ep) as [Q1 Q2 Q3 Q4 Q5 Q6 Q7 Q8 Q9 Q10 Q11 Q12].
  assert (G : forall l (o : nat -> nat), (forall k x, nth_error l k = Some x -> number_at ser (o k) lam x) -> Forall (elt lam) l).
  { intros l o Hl. apply Forall_forall. intros x Hx. apply In_nth_error in Hx. destruct Hx as [k Ek]. apply (number_string ser (o k) x). apply Hl. exact Ek. }
  constructor; try (eapply bytes_of_string; eassumption).
  - rewrite levels_eq. exact Q1.
  - intros v Hv. apply In_nth_error in Hv. destruct Hv as [i Ei]. eapply bytes_of_string; [exact B|]. apply (Q2 i). exact Ei.
  - split; [exact Q6|]. exact (G _ _ Q7).
  - apply number_string in Q8. apply Q8.
  - split; [exact Q9|]. exact (G _ _ Q10).
  - split; [exact Q11|]. exact (G _ _ Q12).
Qed.
End W.

(** *** the statements of PropWire *)
Lemma api_wire I st sig : regular I -> st_init None (lambda I) = (st, Ok tt) -> sig_shape I sig -> forall ser, serialize st I sig = Ok ser <-> wire I sig ser.
Proof.
  intros HB Hst S ser. destruct (regular_inst_ok I HB) as [c OK]. pose proof (io_field _ _ _ OK) as Hc. unfold st_init in Hst. rewrite Hc in Hst. injection Hst as <-.
  rewrite (proj1 (serialize_ok I c Hc sig S)). split.
  - intros E. injection E as <-. apply (enc_wire I c HB Hc). exact S.
  - intros W. rewrite (wire_enc I c HB Hc sig ser W). reflexivity.
Qed.
Lemma api_wire_back H fuel garb I st ser sig : regular I -> st_init None (lambda I) = (st, Ok tt) -> 1 <= fuel -> is_bytes ser -> rep_start I (num_rounds I) <= length ser ->
  (deserialize H fuel garb st I ser = Ok sig <->
   wire I sig (firstn (rep_start I (num_rounds I)) ser) /\ forall e p, nth_error (s_proofs sig) e = Some p -> snd (p_reveal p) = hidden_of H I sig e).
Proof.
  intros HB Hst Hf B L. destruct (regular_inst_ok I HB) as [c OK]. pose proof (io_field _ _ _ OK) as Hc. unfold st_init in Hst. rewrite Hc in Hst. injection Hst as <-.
  assert (SZ : sig_size I = rep_start I (num_rounds I)). { unfold sig_size, rep_start. rewrite (rep_length_eq I HB). reflexivity. }
  rewrite <- SZ in *. destruct (regular_pow2 I HB) as (k0 & HP & Hk8).
  assert (EM : forall h3, phase_3_expand H I fuel garb h3 = Ok (map (fun e => N.to_nat (H (digest_size I =? 32)%nat h3 e mod 256 mod N.of_nat (num_parties I))%N) (seq 0 (num_rounds I)))).
  { intros h3. apply (party_challenges_pow2 H I k0); assumption. }
  assert (IDX : forall sg, length (s_proofs sg) = num_rounds I -> (map (fun p => snd (p_reveal p)) (s_proofs sg) = map (fun e => N.to_nat (H (digest_size I =? 32)%nat (s_h3 sg) e mod 256 mod N.of_nat (num_parties I))%N) (seq 0 (num_rounds I)) <->
    forall e p, nth_error (s_proofs sg) e = Some p -> snd (p_reveal p) = hidden_of H I sg e)).
  { intros sg Ls. split.
    - intros E e p Ep. pose proof (map_nth_error (fun p => snd (p_reveal p)) e _ Ep) as Z. rewrite E in Z.
      assert (He : e < num_rounds I) by (rewrite <- Ls; apply nth_error_Some; congruence). rewrite (map_nth_error _ e (seq 0 (num_rounds I)) (d := e)) in Z.
      + injection Z as Z. symmetry. exact Z.
      + rewrite (nth_error_nth' _ 0) by (rewrite seq_length; exact He). rewrite seq_nth by exact He. reflexivity.
    - intros E. apply nth_error_same. intros e. destruct (nth_error (s_proofs sg) e) as [p|] eqn:Ep.
      + assert (He : e < num_rounds I) by (rewrite <- Ls; apply nth_error_Some; congruence). rewrite (map_nth_error _ e _ Ep), (E e p Ep). rewrite (map_nth_error _ e (seq 0 (num_rounds I)) (d := e)); [reflexivity|].
        rewrite (nth_error_nth' _ 0) by (rewrite seq_length; exact He). rewrite seq_nth by exact He. reflexivity.
      + apply nth_error_None in Ep. rewrite (proj2 (nth_error_None _ _)) by (rewrite map_length; exact Ep). symmetry. apply nth_error_None. rewrite map_length, seq_length. lia. }
  destruct (deserialize_run I c Hc H fuel garb ser _ B L (EM (h3_of I ser))) as (sg & E1 & SS & E2 & E3 & E4); [rewrite map_length, seq_length; reflexivity|].
  rewrite E1. split.
  - intros E. injection E as ->. split; [rewrite <- E4; apply (enc_wire I c HB Hc); exact SS|]. apply IDX; [apply SS|]. rewrite E3. exact E2.
  - intros [W X]. assert (SG : sig_shape I sig) by (apply (wire_shape I c HB Hc sig _ (is_bytes_firstn _ _ B) W)).
    pose proof (wire_enc I c HB Hc sig _ W) as Z. rewrite <- E4 in Z. apply IDX in X; [|apply SG].
    assert (H3 : s_h3 sig = s_h3 sg). { rewrite E3. unfold h3_of. pose proof (wi_h3 _ _ _ W) as Q. rewrite <- (slice_of_string _ _ _ _ Q). unfold slice. rewrite skipn_firstn_comm, firstn_firstn. f_equal. unfold sig_size. change SALT_SIZE with 32. lia. }
    f_equal. apply (enc_sig_inj I c Hc); auto. rewrite E2, X, H3, E3. reflexivity.
Qed.
