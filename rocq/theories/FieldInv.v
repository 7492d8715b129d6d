(** GF2E::inverse computes multiplicative inverses; the loops terminate. *)
From Coq Require Import Arith NArith ZArith List Bool Lia.
From Verif Require Import Prelude Clmul FieldModel FieldProofs.
Import ListNotations.
Local Open Scope N_scope.

Lemma lxor_cancel_top a b : a <> 0 -> b <> 0 -> N.log2 a = N.log2 b ->
  N.lxor a b = 0 \/ N.log2 (N.lxor a b) < N.log2 a.
Proof.
  intros Ha Hb E. destruct (N.eq_dec (N.lxor a b) 0) as [Hz|Hz]; auto. right.
  assert (Hle : N.log2 (N.lxor a b) <= N.log2 a).
  { pose proof (N.log2_lxor a b). lia. }
  destruct (N.eq_dec (N.log2 (N.lxor a b)) (N.log2 a)) as [Heq|Hne]; [|lia].
  exfalso. pose proof (N.bit_log2 _ Hz) as Hbit. rewrite Heq in Hbit.
  rewrite N.lxor_spec, N.bit_log2 in Hbit by auto. rewrite E, N.bit_log2 in Hbit by auto.
  discriminate.
Qed.

Lemma shiftl_neq0 a k : a <> 0 -> N.shiftl a k <> 0.
Proof. rewrite N.shiftl_eq_0_iff. auto. Qed.

Lemma lt64_log2 a : a <> 0 -> a < 2 ^ 64 -> N.log2 a < 64.
Proof. intros. apply lt_pow2_log2; auto. Qed.

Definition mu (a : N) : nat := if a =? 0 then O else S (N.to_nat (N.log2 a)).

Lemma clmul_pow2_l k b : clmul (2 ^ k) b = N.shiftl b k.
Proof. rewrite <- N.shiftl_1_l, clmul_shiftl_l, clmul_1_l. reflexivity. Qed.

Lemma div_loop_ok z0 fuel : forall a b quo,
  b <> 0 -> a < 2 ^ 64 -> b < 2 ^ 64 -> (mu a < fuel)%nat ->
  (forall i, a <> 0 -> i + N.log2 b <= N.log2 a -> N.testbit quo i = false) ->
  exists d, div_loop z0 fuel a b quo (clzl z0 b - clzl z0 a)%Z = Ok (N.lxor quo d) /\
    (N.lxor a (clmul d b) = 0 \/ N.log2 (N.lxor a (clmul d b)) < N.log2 b).
Proof.
  induction fuel; intros a b quo Hb Ha64 Hb64 Hf Hq; [lia|].
  cbn [div_loop].
  destruct (N.eqb_spec a 0) as [->|Ha].
  { rewrite andb_false_r. exists 0. rewrite N.lxor_0_r. split; auto. }
  rewrite andb_true_r.
  assert (Hdiff : (clzl z0 b - clzl z0 a = Z.of_N (N.log2 a) - Z.of_N (N.log2 b))%Z).
  { unfold clzl. apply N.eqb_neq in Ha, Hb. rewrite Ha, Hb. lia. }
  rewrite Hdiff.
  destruct (Z.leb_spec 0 (Z.of_N (N.log2 a) - Z.of_N (N.log2 b))%Z) as [Hle|Hlt].
  2:{ exists 0. rewrite N.lxor_0_r. split; auto. right. rewrite clmul_0_l, N.lxor_0_r. lia. }
  set (k := Z.to_N (Z.of_N (N.log2 a) - Z.of_N (N.log2 b))).
  assert (Hk : k + N.log2 b = N.log2 a) by (unfold k; lia).
  assert (Hla : N.log2 a < 64) by (apply lt64_log2; auto).
  assert (E1 : shl 1 k = 2 ^ k).
  { unfold shl. rewrite N.shiftl_1_l. apply w64_small. apply N.pow_lt_mono_r; lia. }
  assert (Hbk : N.log2 (N.shiftl b k) = N.log2 a).
  { rewrite N.log2_shiftl by auto. lia. }
  assert (Hbk0 : N.shiftl b k <> 0) by (apply shiftl_neq0; auto).
  assert (E2 : shl b k = N.shiftl b k).
  { unfold shl. apply w64_small. apply lt_pow2_log2; auto. lia. }
  rewrite E1, E2.
  assert (E3 : N.lor quo (2 ^ k) = N.lxor quo (2 ^ k)).
  { symmetry. apply N.lxor_lor. apply N.bits_inj. intros i. rewrite N.land_spec, N.bits_0.
    destruct (N.eq_dec i k) as [->|Hi].
    - rewrite Hq by (auto; lia). reflexivity.
    - rewrite N.pow2_bits_false by auto. apply andb_false_r. }
  rewrite E3.
  destruct (lxor_cancel_top a (N.shiftl b k)) as [Hz|Hlt]; auto.
  - destruct (IHfuel (N.lxor a (N.shiftl b k)) b (N.lxor quo (2 ^ k))) as [d [H1 H2]]; auto.
    + rewrite Hz. reflexivity.
    + rewrite Hz. unfold mu in *. apply N.eqb_neq in Ha. rewrite Ha in Hf. simpl. lia.
    + intros i Hc. congruence.
    + exists (N.lxor (2 ^ k) d). rewrite H1. rewrite N.lxor_assoc. split; auto.
      rewrite clmul_lxor_l, <- N.lxor_assoc, clmul_pow2_l. auto.
  - destruct (IHfuel (N.lxor a (N.shiftl b k)) b (N.lxor quo (2 ^ k))) as [d [H1 H2]]; auto.
    + apply lxor_lt_pow2; auto. apply lt_pow2_log2; auto. lia.
    + unfold mu in *. apply N.eqb_neq in Ha. rewrite Ha in Hf.
      destruct (N.lxor a (N.shiftl b k) =? 0); lia.
    + intros i Hc Hi. rewrite N.lxor_spec, N.pow2_bits_false by lia.
      rewrite Hq by (auto; lia). reflexivity.
    + exists (N.lxor (2 ^ k) d). rewrite H1. rewrite N.lxor_assoc. split; auto.
      rewrite clmul_lxor_l, <- N.lxor_assoc, clmul_pow2_l. auto.
Qed.

Lemma div_quotient_ok z0 a b : b <> 0 -> a < 2 ^ 64 -> b < 2 ^ 64 ->
  exists d, GF2_euclidean_div_quotient z0 a b = Ok d /\
    (N.lxor a (clmul d b) = 0 \/ N.log2 (N.lxor a (clmul d b)) < N.log2 b).
Proof.
  intros Hb Ha Hb'. unfold GF2_euclidean_div_quotient.
  destruct (div_loop_ok z0 66 a b 0) as [d [H1 H2]]; auto.
  - unfold mu. destruct (N.eqb_spec a 0); [lia|].
    pose proof (lt64_log2 a n Ha). lia.
  - exists d. rewrite H1, N.lxor_0_l. auto.
Qed.

(** If deg a >= deg b, the quotient has degree deg a - deg b. *)
Lemma quotient_log2 a b d : a <> 0 -> b <> 0 -> N.log2 b < N.log2 a ->
  (N.lxor a (clmul d b) = 0 \/ N.log2 (N.lxor a (clmul d b)) < N.log2 b) ->
  d <> 0 /\ N.log2 d + N.log2 b = N.log2 a.
Proof.
  intros Ha Hb Hlt H.
  assert (Hd : d <> 0).
  { intros ->. rewrite clmul_0_l, N.lxor_0_r in H. destruct H; lia. }
  split; auto.
  destruct (clmul_log2 d b Hd Hb) as [H1 H2]. rewrite <- H2.
  destruct H as [H|H].
  - apply N.lxor_eq in H. congruence.
  - set (x := N.lxor a (clmul d b)) in *.
    assert (E : clmul d b = N.lxor x a).
    { unfold x. rewrite (N.lxor_comm a), N.lxor_assoc, N.lxor_nilpotent, N.lxor_0_r. reflexivity. }
    rewrite E. apply lxor_log2_lt. lia.
Qed.

Section Inverse.
Context (n : nat) (c : fctx) (linv : list N) (OK : field_ok n c linv).
Notation nn := (N.of_nat n).
Notation q := (2 ^ nn).
Notation m := (fc_modulus c).
Notation mul := (gmul c).

(** invariant of the loop of mod_inverse for input [a] *)
Record inv_inv (a t new_t r new_r : N) : Prop := {
  ii_r : r <> 0;
  ii_rn : N.log2 r <= nn;
  ii_lt : new_r = 0 \/ N.log2 new_r < N.log2 r;
  ii_cr : cong m r (clmul t a);
  ii_cn : cong m new_r (clmul new_t a);
  ii_bez : exists u v, N.lxor (clmul u r) (clmul v new_r) = 1;
  ii_nt : new_t <> 0;
  ii_deg : N.log2 new_t + N.log2 r = nn;
  ii_t : t = 0 \/ N.log2 t < N.log2 new_t
}.

Lemma lt_64_of_log2 x : x = 0 \/ N.log2 x <= 48 -> x < 2 ^ 64.
Proof.
  intros [->|H]; [reflexivity|]. destruct (N.eq_dec x 0) as [->|Hx]; [reflexivity|].
  apply lt_pow2_log2; auto. lia.
Qed.

Lemma inv_loop_ok z0 fuel a : forall t new_t r new_r,
  inv_inv a t new_t r new_r -> (mu new_r < fuel)%nat ->
  exists t', inv_loop z0 fuel t new_t r new_r = Ok t' /\ t' < q /\ cong m 1 (clmul t' a).
Proof.
  pose proof (fo_n _ _ _ OK) as Hn.
  induction fuel; intros t new_t r new_r I Hf; [lia|].
  cbn [inv_loop]. destruct I as [Hr Hrn Hlt Hcr Hcn [u [v Hb]] Hnt Hdeg Ht].
  destruct (N.eqb_spec new_r 0) as [->|Hnr].
  - exists t. split; auto.
    rewrite clmul_0_r, N.lxor_0_r in Hb.
    assert (Hr1 : r = 1).
    { destruct (N.eq_dec u 0) as [->|Hu]; [discriminate|].
      destruct (clmul_log2 u r Hu Hr) as [H1 H2]. rewrite Hb in H2. change (N.log2 1) with 0 in H2.
      assert (Hl : N.log2 r = 0) by lia. apply N.log2_null in Hl. lia. }
    subst r. split; auto.
    destruct Ht as [->|Ht].
    + apply N.neq_0_lt_0, N.pow_nonzero. discriminate.
    + destruct (N.eq_dec t 0) as [->|Ht0].
      * apply N.neq_0_lt_0, N.pow_nonzero. discriminate.
      * apply lt_pow2_log2; auto. change (N.log2 1) with 0 in Hdeg. lia.
  - destruct Hlt as [Hlt|Hlt]; [congruence|].
    assert (Hr64 : r < 2 ^ 64) by (apply lt_64_of_log2; right; lia).
    assert (Hn64 : new_r < 2 ^ 64) by (apply lt_64_of_log2; right; lia).
    destruct (div_quotient_ok z0 r new_r) as [d [Hd Hrem]]; auto.
    rewrite Hd. cbn [bind].
    destruct (quotient_log2 r new_r d) as [Hd0 Hdl]; auto.
    destruct (clmul_log2 d new_r Hd0 Hnr) as [Hp1 Hp2].
    destruct (clmul_log2 d new_t Hd0 Hnt) as [Hq1 Hq2].
    assert (E1 : lo64 (clmul64 d new_r) = clmul d new_r).
    { unfold lo64, clmul64. rewrite (w64_small d), (w64_small new_r); auto.
      - apply w64_small, lt_64_of_log2. right. lia.
      - apply lt_64_of_log2. right. lia. }
    assert (E2 : lo64 (clmul64 d new_t) = clmul d new_t).
    { unfold lo64, clmul64. rewrite (w64_small d), (w64_small new_t); auto.
      - apply w64_small, lt_64_of_log2. right. lia.
      - apply lt_64_of_log2. right. lia.
      - apply lt_64_of_log2. right. lia. }
    rewrite E1, E2.
    assert (HL : N.log2 (N.lxor t (clmul d new_t)) = N.log2 (clmul d new_t)).
    { destruct Ht as [->|Ht]; [rewrite N.lxor_0_l; reflexivity|].
      apply lxor_log2_lt. lia. }
    apply IHfuel.
    + constructor; auto.
      * lia.
      * apply cong_trans with (N.lxor (clmul t a) (clmul d (clmul new_t a))).
        -- apply cong_lxor; auto. apply cong_clmul; auto. apply cong_refl.
        -- rewrite clmul_lxor_l, clmul_assoc. apply cong_refl.
      * exists (N.lxor (clmul u d) v), u.
        rewrite clmul_lxor_r, clmul_lxor_l, clmul_assoc, <- Hb.
        set (X := clmul u (clmul d new_r)). set (Y := clmul v new_r). set (Z := clmul u r).
        rewrite (N.lxor_comm Z X), <- N.lxor_assoc, (N.lxor_comm X Y).
        rewrite (N.lxor_assoc Y X X), N.lxor_nilpotent, N.lxor_0_r. apply N.lxor_comm.
      * intros E. rewrite E in HL. change (N.log2 0) with 0 in HL. lia.
      * rewrite HL. lia.
      * right. rewrite HL. lia.
    + unfold mu in *. apply N.eqb_neq in Hnr. rewrite Hnr in Hf.
      destruct Hrem as [->|Hrem]; [simpl; lia|].
      destruct (N.lxor r (clmul d new_r) =? 0); lia.
Qed.

Theorem mod_inverse_ok z0 a : a < q -> a <> 0 ->
  exists b, mod_inverse z0 a m = Ok b /\ b < q /\ mul a b = 1.
Proof.
  intros Ha Ha0. pose proof (fo_n _ _ _ OK) as Hn. unfold mod_inverse.
  destruct (exists_inverse n c linv OK a Ha Ha0) as [w [Hw Hwa]].
  destruct (inv_loop_ok z0 66 a 0 1 m a) as [b [H1 [H2 H3]]].
  - constructor.
    + eapply m_neq0; eauto.
    + rewrite (fo_log2 _ _ _ OK). lia.
    + right. rewrite (fo_log2 _ _ _ OK). apply lt_pow2_log2; auto.
    + exists 1. rewrite clmul_0_l, N.lxor_0_r, clmul_1_l. reflexivity.
    + rewrite clmul_1_l. apply cong_refl.
    + destruct (mul_cong n c linv OK a w Ha Hw) as [p Hp]. rewrite Hwa in Hp.
      exists p, w. rewrite <- Hp, (clmul_comm a w).
      rewrite N.lxor_comm, <- N.lxor_assoc, N.lxor_nilpotent. reflexivity.
    + discriminate.
    + change (N.log2 1) with 0. rewrite (fo_log2 _ _ _ OK). lia.
    + auto.
  - unfold mu. destruct (N.eqb_spec a 0); [lia|]. apply lt_pow2_log2 in Ha; auto. lia.
  - exists b. split; auto. split; auto.
    apply (cong_eq n c linv OK); [eapply mul_lt; eauto|eapply one_lt_q; eauto|].
    apply cong_sym. eapply cong_trans; [exact H3|].
    rewrite clmul_comm. eapply mul_cong; eauto.
Qed.

Lemma mod_inverse_zero z0 : mod_inverse z0 0 m = Ok 0.
Proof. reflexivity. Qed.

Lemma inverse_unique a b b' : a < q -> b < q -> b' < q -> mul a b = 1 -> mul a b' = 1 -> b = b'.
Proof.
  intros Ha Hb Hb' E E'.
  rewrite <- (mul_1_l n c linv OK b Hb), <- E'.
  rewrite (mul_comm c a b'), (mul_assoc n c linv OK) by auto. rewrite E.
  rewrite (mul_comm c). symmetry. rewrite (mul_1_l n c linv OK); auto.
Qed.

(** the undefined value of __builtin_clzl(0) does not matter *)
Theorem mod_inverse_z0_irrelevant z0 z1 a : a < q -> mod_inverse z0 a m = mod_inverse z1 a m.
Proof.
  intros Ha. destruct (N.eq_dec a 0) as [->|Ha0]; [reflexivity|].
  destruct (mod_inverse_ok z0 a Ha Ha0) as [b [H1 [H2 H3]]].
  destruct (mod_inverse_ok z1 a Ha Ha0) as [b' [H1' [H2' H3']]].
  rewrite H1, H1'. f_equal. apply (inverse_unique a); auto.
Qed.

(** ** dot product *)
Fixpoint sum_products (xs ys : list N) : N :=
  match xs, ys with
  | x :: xs', y :: ys' => N.lxor (mul x y) (sum_products xs' ys')
  | _, _ => 0
  end.

Lemma dot_accum_red xs : forall ys acc,
  fc_reduce c (dot_accum acc xs ys) = N.lxor (fc_reduce c acc) (sum_products xs ys).
Proof.
  induction xs; destruct ys; intros; simpl; rewrite ?N.lxor_0_r; auto.
  rewrite IHxs, (fo_add _ _ _ OK), N.lxor_assoc. reflexivity.
Qed.

Theorem dot_product_ok xs ys : length xs = length ys -> dot_product c xs ys = Ok (sum_products xs ys).
Proof.
  intros H. unfold dot_product. rewrite H, Nat.eqb_refl. simpl.
  rewrite dot_accum_red, (additive_0 _ (fo_add _ _ _ OK)), N.lxor_0_l. reflexivity.
Qed.

Lemma sum_products_lt xs ys : sum_products xs ys < q.
Proof.
  revert ys; induction xs; destruct ys; simpl; try eapply zero_lt_q; eauto.
  apply lxor_lt_pow2; auto. eapply mul_lt; eauto.
Qed.

(** ** byte encoding *)
Lemma q_256 : q = 256 ^ N.of_nat (fc_byte_size c).
Proof.
  rewrite (fo_size _ _ _ OK). change 256 with (2 ^ 8). rewrite <- N.pow_mul_r. f_equal. lia.
Qed.
Theorem from_to_bytes a : a < q -> from_bytes (to_bytes (fc_byte_size c) a) = a.
Proof.
  intros H. unfold from_bytes, to_bytes. rewrite (in_w64 n c linv OK) by auto.
  apply le_word_bytes. rewrite <- q_256. auto.
Qed.
Theorem to_from_bytes l : is_bytes l -> length l = fc_byte_size c ->
  to_bytes (fc_byte_size c) (from_bytes l) = l /\ from_bytes l < q.
Proof.
  intros Hb Hl. assert (H : from_bytes l < q).
  { rewrite q_256, <- Hl. apply le_word_lt; auto. }
  split; auto. unfold to_bytes, from_bytes in *. rewrite (in_w64 n c linv OK) by auto.
  rewrite <- Hl. apply le_bytes_word; auto.
Qed.
End Inverse.
