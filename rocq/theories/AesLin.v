(** The share evaluation of AesMpc is additive, and evaluates AES on consistent S-box outputs. *)
From Coq Require Import Arith NArith List Bool Lia Btauto.
From Verif Require Import Prelude Clmul Gf8 AesSpec AesModel AesBase AesKs AesPlain AesApi AesMpc.
Import ListNotations.
Local Open Scope N_scope.

(** ** Additivity *)
Fixpoint zipx (a b : list reg) : list reg :=
  match a, b with x :: a', y :: b' => xorl x y :: zipx a' b' | _, _ => [] end.
Definition xor2 (a b : bytes * bytes) : bytes * bytes := (xorl (fst a) (fst b), xorl (snd a) (snd b)).

Lemma kg_add a rc u v : is_bytes u -> is_bytes v ->
  kg a rc (xorl u v) = xorl (kg a rc u) (kg 0 0 v).
Proof.
  intros Hu Hv. unfold kg. rewrite map_xorl_bytes by (assumption || apply affine_lin_add).
  destruct (map affine_lin u) as [|x u'], (map affine_lin v) as [|y v']; cbn [xorl]; try reflexivity.
  f_equal; [xor_solve|]. clear. revert v'; induction u'; destruct v'; cbn [xorl map]; auto. f_equal; [xor_solve|apply IHu'].
Qed.
Lemma place_add d u v : length u = length v -> place d (xorl u v) = xorl (place d u) (place d v).
Proof.
  intros H. unfold place. rewrite app_xorl by reflexivity. rewrite app_xorl by assumption.
  rewrite !xorl_nilpotent, !zeros_length. reflexivity.
Qed.
Lemma Rt_add first u v : reg_ok u -> reg_ok v -> Rt first (xorl u v) = xorl (Rt first u) (Rt false v).
Proof.
  intros [Lu Bu] [Lv Bv]. unfold Rt. rewrite shuffle_epi8_xorl by congruence.
  assert (Hu : is_bytes (shuffle_epi8 u t_shuf)) by (apply reg_shuffle_epi8; [reflexivity|split; assumption]).
  assert (Hv : is_bytes (shuffle_epi8 v t_shuf)) by (apply reg_shuffle_epi8; [reflexivity|split; assumption]).
  generalize dependent (shuffle_epi8 u t_shuf). generalize dependent (shuffle_epi8 v t_shuf). clear.
  intros v Hv u Hu. revert v Hv. induction Hu as [|x u Hx Hu IH]; intros v Hv; destruct Hv as [|y v Hy Hv]; cbn [xorl map]; auto.
  rewrite affine_lin_add by assumption. rewrite IH by assumption. f_equal. unfold aff. rewrite N.lxor_0_r. xor_solve.
Qed.
Lemma sh_add a a' : xorl (xorl a a') (slli4 (xorl a a')) = xorl (xorl a (slli4 a)) (xorl a' (slli4 a')).
Proof. rewrite slli4_xorl. apply xorl_swap. Qed.
Definition shx (a : reg) : reg := xorl a (slli4 a).
Lemma shx_add a a' : shx (xorl a a') = xorl (shx a) (shx a').
Proof. apply sh_add. Qed.
Lemma ke128_add k k' g g' : length g = 16%nat -> length g' = 16%nat ->
  aes_128_key_expansion (xorl k k') (xorl g g') = xorl (aes_128_key_expansion k g) (aes_128_key_expansion k' g').
Proof.
  intros.
  change (aes_128_key_expansion (xorl k k') (xorl g g')) with (xorl (shx (shx (shx (xorl k k')))) (shuffle_all (xorl g g') 3)).
  rewrite shuffle_all_xorl by (assumption || lia). rewrite !shx_add. apply xorl_swap.
Qed.
(** temp ^ (temp << 32) ^ (temp << 64) ^ (temp << 96) *)
Definition casc (a : reg) : reg := xorl (xorl (xorl a (slli4 a)) (slli4 (slli4 a))) (slli4 (slli4 (slli4 a))).
Lemma casc_add a a' : casc (xorl a a') = xorl (casc a) (casc a').
Proof.
  unfold casc. rewrite !slli4_xorl.
  generalize (slli4 (slli4 (slli4 a))); intros x. generalize (slli4 (slli4 (slli4 a'))); intros x'.
  generalize (slli4 (slli4 a)); intros y. generalize (slli4 (slli4 a')); intros y'.
  generalize (slli4 a); intros z. generalize (slli4 a'); intros z'. rewrite (xorl_swap a a' z z'). rewrite (xorl_swap (xorl a z) (xorl a' z') y y'). apply xorl_swap.
Qed.
Lemma casc_length a : length a = 16%nat -> length (casc a) = 16%nat.
Proof. intros. unfold casc. repeat (apply xorl_length_eq || apply slli4_length || assumption). Qed.
Lemma ke192_add a a' g g' c c' : length a = 16%nat -> length a' = 16%nat -> length g = 16%nat -> length g' = 16%nat ->
  KEY_192_ASSIST (xorl a a') (xorl g g') (xorl c c') =
  (xorl (fst (KEY_192_ASSIST a g c)) (fst (KEY_192_ASSIST a' g' c')),
   xorl (snd (KEY_192_ASSIST a g c)) (snd (KEY_192_ASSIST a' g' c'))).
Proof.
  intros. unfold KEY_192_ASSIST, xor128. cbv zeta. cbn [fst snd].
  change (xorl (xorl (xorl (xorl a a') (slli4 (xorl a a'))) (slli4 (slli4 (xorl a a')))) (slli4 (slli4 (slli4 (xorl a a'))))) with (casc (xorl a a')).
  change (xorl (xorl (xorl a (slli4 a)) (slli4 (slli4 a))) (slli4 (slli4 (slli4 a)))) with (casc a).
  change (xorl (xorl (xorl a' (slli4 a')) (slli4 (slli4 a'))) (slli4 (slli4 (slli4 a')))) with (casc a').
  rewrite casc_add, (shuffle_all_xorl g) by (assumption || lia). rewrite (xorl_swap (casc a)).
  rewrite sh_add.
  rewrite (shuffle_all_xorl (xorl (casc a) (shuffle_all g 1)))
    by (try lia; apply xorl_length_eq; try (apply casc_length; assumption); apply shuffle_all_length; (assumption || lia)).
  rewrite (xorl_swap (xorl c (slli4 c))). reflexivity.
Qed.
Lemma ke256a_add a a' g g' : length g = 16%nat -> length g' = 16%nat ->
  KEY_256_ASSIST_1 (xorl a a') (xorl g g') = xorl (KEY_256_ASSIST_1 a g) (KEY_256_ASSIST_1 a' g').
Proof.
  intros. change (KEY_256_ASSIST_1 (xorl a a') (xorl g g')) with (xorl (casc (xorl a a')) (shuffle_all (xorl g g') 3)).
  rewrite casc_add, shuffle_all_xorl by (assumption || lia). apply xorl_swap.
Qed.
Lemma ke256b_add a a' g g' : length g = 16%nat -> length g' = 16%nat ->
  KEY_256_ASSIST_2 (xorl g g') (xorl a a') = xorl (KEY_256_ASSIST_2 g a) (KEY_256_ASSIST_2 g' a').
Proof.
  intros. change (KEY_256_ASSIST_2 (xorl g g') (xorl a a')) with (xorl (casc (xorl a a')) (shuffle_all (xorl g g') 2)).
  rewrite casc_add, shuffle_all_xorl by (assumption || lia). apply xorl_swap.
Qed.
Lemma rotword_add a b : length a = length b -> rotword (xorl a b) = xorl (rotword a) (rotword b).
Proof. destruct a, b; cbn [xorl rotword length]; intros; try discriminate; auto. rewrite app_xorl by (injection H; auto). reflexivity. Qed.
Lemma rot_add a b i : length a = 16%nat -> length b = 16%nat -> (i < 4)%nat ->
  rotword (dword (xorl a b) i) = xorl (rotword (dword a i)) (rotword (dword b i)).
Proof. intros. rewrite dword_xorl. apply rotword_add. rewrite !dword_length by assumption. reflexivity. Qed.
Lemma rows_add a b : length a = 16%nat -> length b = 16%nat -> rows (xorl a b) = xorl (rows a) (rows b).
Proof. intros. rewrite !rows_eq. apply (shuffle_epi8_xorl tr_idx). congruence. Qed.

Lemma place_kg_add d first rc rc' u v : is_bytes u -> is_bytes v -> length u = length v ->
  rc' = rc_of first rc ->
  place d (kg (aff first) rc' (firstn 4 (xorl u v))) =
  xorl (place d (kg (aff first) rc' (firstn 4 u))) (place d (kg (aff false) (rc_of false rc) (firstn 4 v))).
Proof.
  intros Hu Hv L ->. rewrite firstn_xorl, kg_add by (apply is_bytes_firstn; assumption).
  apply place_add. rewrite !kg_length, !firstn_length. congruence.
Qed.
Lemma xorl_len2 a b : length a = length b -> length (xorl a b) = length b.
Proof. intros. apply xorl_length_eq; auto. Qed.

Lemma p128_add first rcs : forall k k' t t', reg_ok k -> reg_ok k' -> Forall (fun r => r < 256) rcs ->
  is_bytes t -> is_bytes t' -> length t = length t' -> (4 * length rcs <= length t)%nat ->
  p128 first (xorl k k') rcs (xorl t t') =
  (zipx (fst (p128 first k rcs t)) (fst (p128 false k' rcs t')), xorl (snd (p128 first k rcs t)) (snd (p128 false k' rcs t'))).
Proof.
  induction rcs as [|rc rcs IH]; intros k k' t t' Hk Hk' Hr Bt Bt' L Hl; cbn [p128]; [reflexivity|].
  inversion Hr; subst. cbn [length] in Hl.
  rewrite (place_kg_add 12 first rc) by (assumption || reflexivity).
  set (g := place 12 (kg (aff first) (rc_of first rc) (firstn 4 t))).
  set (g' := place 12 (kg (aff false) (rc_of false rc) (firstn 4 t'))).
  assert (G : reg_ok g) by (apply reg_place_kg; (assumption || lia)).
  assert (G' : reg_ok g') by (apply reg_place_kg; (assumption || lia)).
  rewrite ke128_add by (apply G || apply G'). rewrite skipn_xorl.
  rewrite IH; try assumption; try (apply is_bytes_skipn; assumption); try (rewrite !skipn_length; lia);
    try (apply reg_ke128; assumption).
  destruct (p128 first (aes_128_key_expansion k g) rcs (skipn 4 t)) as [ks o].
  destruct (p128 false (aes_128_key_expansion k' g') rcs (skipn 4 t')) as [ks' o'].
  cbn [fst snd zipx]. f_equal. rewrite rot_add by (apply Hk || apply Hk' || lia).
  symmetry. apply app_xorl. rewrite !rotword_length, !dword_length by (apply Hk || apply Hk' || lia). reflexivity.
Qed.
Lemma p192_add first rcs : forall a c a' c' t t', reg_ok a -> reg_ok c -> reg_ok a' -> reg_ok c' ->
  Forall (fun r => fst r < 256 /\ snd r < 256) rcs ->
  is_bytes t -> is_bytes t' -> length t = length t' -> (8 * length rcs <= length t)%nat ->
  p192 first (xorl a a') (xorl c c') rcs (xorl t t') =
  (zipx (fst (p192 first a c rcs t)) (fst (p192 false a' c' rcs t')), xorl (snd (p192 first a c rcs t)) (snd (p192 false a' c' rcs t'))).
Proof.
  induction rcs as [|[ra rb] rcs IH]; intros a c a' c' t t' Ha Hc Ha' Hc' Hr Bt Bt' L Hl; cbn [p192]; [reflexivity|].
  inversion Hr as [|? ? [Ra Rb] Hr']; subst. cbn [length fst snd] in Hl, Ra, Rb.
  rewrite (place_kg_add 4 first ra) by (assumption || reflexivity).
  set (g := place 4 (kg (aff first) (rc_of first ra) (firstn 4 t))).
  set (g' := place 4 (kg (aff false) (rc_of false ra) (firstn 4 t'))).
  assert (G : reg_ok g) by (apply reg_place_kg; (assumption || lia)).
  assert (G' : reg_ok g') by (apply reg_place_kg; (assumption || lia)).
  rewrite ke192_add by (apply G || apply G' || apply Ha || apply Ha'). rewrite skipn_xorl.
  pose proof (reg_ke192 a g c Ha G Hc) as [U1 U3]. pose proof (reg_ke192 a' g' c' Ha' G' Hc') as [U1' U3'].
  destruct (KEY_192_ASSIST a g c) as [u1 u3]. destruct (KEY_192_ASSIST a' g' c') as [u1' u3']. cbn [fst snd] in *.
  assert (B4 : is_bytes (skipn 4 t)) by (apply is_bytes_skipn; assumption).
  assert (B4' : is_bytes (skipn 4 t')) by (apply is_bytes_skipn; assumption).
  assert (L4 : length (skipn 4 t) = length (skipn 4 t')) by (rewrite !skipn_length; lia).
  assert (Hl4 : (4 + 8 * length rcs <= length (skipn 4 t))%nat) by (rewrite !skipn_length; lia).
  rewrite (place_kg_add 4 first rb) by (assumption || reflexivity).
  set (h := place 4 (kg (aff first) (rc_of first rb) (firstn 4 (skipn 4 t)))).
  set (h' := place 4 (kg (aff false) (rc_of false rb) (firstn 4 (skipn 4 t')))).
  assert (H : reg_ok h) by (apply reg_place_kg; (assumption || lia)).
  assert (H' : reg_ok h') by (apply reg_place_kg; (assumption || lia)).
  rewrite ke192_add by (apply H || apply H' || apply U1 || apply U1'). rewrite skipn_xorl.
  pose proof (reg_ke192 u1 h u3 U1 H U3) as [W1 W3]. pose proof (reg_ke192 u1' h' u3' U1' H' U3') as [W1' W3'].
  destruct (KEY_192_ASSIST u1 h u3) as [w1 w3]. destruct (KEY_192_ASSIST u1' h' u3') as [w1' w3']. cbn [fst snd] in *.
  rewrite IH; try assumption; try (apply is_bytes_skipn; assumption); try (rewrite !skipn_length in *; lia).
  destruct (p192 first w1 w3 rcs (skipn 4 (skipn 4 t))) as [ks o].
  destruct (p192 false w1' w3' rcs (skipn 4 (skipn 4 t'))) as [ks' o'].
  cbn [fst snd zipx]. f_equal.
  - rewrite shuffle_pd0_xorl by (apply Hc || apply Hc'). rewrite shuffle_pd1_xorl by (apply U1 || apply U1'). reflexivity.
  - rewrite !rot_add by (apply Hc || apply Hc' || apply U3 || apply U3' || lia).
    symmetry. rewrite !app_xorl by (rewrite !rotword_length, !dword_length by (apply Hc || apply Hc' || apply U3 || apply U3' || lia); reflexivity).
    reflexivity.
Qed.
Lemma p256_add first rcs : forall a c a' c' t t', reg_ok a -> reg_ok c -> reg_ok a' -> reg_ok c' ->
  Forall (fun r => r < 256) rcs ->
  is_bytes t -> is_bytes t' -> length t = length t' -> (8 * length rcs + 4 <= length t)%nat ->
  p256 first (xorl a a') (xorl c c') rcs (xorl t t') =
  (zipx (fst (p256 first a c rcs t)) (fst (p256 false a' c' rcs t')), xorl (snd (p256 first a c rcs t)) (snd (p256 false a' c' rcs t'))).
Proof.
  induction rcs as [|ra rcs IH]; intros a c a' c' t t' Ha Hc Ha' Hc' Hr Bt Bt' L Hl; cbn [p256].
  - cbn [fst snd zipx]. rewrite (place_kg_add 12 first 0x40) by (assumption || reflexivity).
    cbn [length] in Hl. assert (Z : 0x40 < 256) by reflexivity.
    rewrite ke256a_add by (apply reg_place_kg; (assumption || lia)).
    rewrite rot_add by (apply Hc || apply Hc' || lia). reflexivity.
  - inversion Hr as [|? ? Ra Hr']; subst. cbn [length] in Hl.
    rewrite (place_kg_add 12 first ra) by (assumption || reflexivity).
    set (g := place 12 (kg (aff first) (rc_of first ra) (firstn 4 t))).
    set (g' := place 12 (kg (aff false) (rc_of false ra) (firstn 4 t'))).
    assert (G : reg_ok g) by (apply reg_place_kg; (assumption || lia)).
    assert (G' : reg_ok g') by (apply reg_place_kg; (assumption || lia)).
    rewrite ke256a_add by (apply G || apply G'). rewrite skipn_xorl.
    pose proof (reg_ke256a a g Ha G) as U1. pose proof (reg_ke256a a' g' Ha' G') as U1'.
    set (u1 := KEY_256_ASSIST_1 a g) in *. set (u1' := KEY_256_ASSIST_1 a' g') in *.
    assert (B4 : is_bytes (skipn 4 t)) by (apply is_bytes_skipn; assumption).
    assert (B4' : is_bytes (skipn 4 t')) by (apply is_bytes_skipn; assumption).
    assert (L4 : length (skipn 4 t) = length (skipn 4 t')) by (rewrite !skipn_length; lia).
    assert (Hl4 : (4 + (8 * length rcs + 4) <= length (skipn 4 t))%nat) by (rewrite !skipn_length; lia).
    assert (Ez : 0 = rc_of first 0) by (destruct first; reflexivity).
    rewrite (place_kg_add 8 first 0) by (assumption || reflexivity). change (rc_of false 0) with 0.
    set (h := place 8 (kg (aff first) 0 (firstn 4 (skipn 4 t)))).
    set (h' := place 8 (kg (aff false) 0 (firstn 4 (skipn 4 t')))).
    assert (Z : 0 < 256) by reflexivity.
    assert (H : reg_ok h) by (unfold h; rewrite Ez at 1; apply reg_place_kg; (assumption || lia)).
    assert (H' : reg_ok h') by (unfold h'; change 0 with (rc_of false 0) at 1; apply reg_place_kg; (assumption || lia)).
    rewrite ke256b_add by (apply H || apply H'). rewrite skipn_xorl.
    pose proof (reg_ke256b h c H Hc) as U3. pose proof (reg_ke256b h' c' H' Hc') as U3'.
    set (u3 := KEY_256_ASSIST_2 h c) in *. set (u3' := KEY_256_ASSIST_2 h' c') in *.
    rewrite IH; try assumption; try (apply is_bytes_skipn; assumption); try (rewrite !skipn_length in *; lia).
    destruct (p256 first u1 u3 rcs (skipn 4 (skipn 4 t))) as [ks o].
    destruct (p256 false u1' u3' rcs (skipn 4 (skipn 4 t'))) as [ks' o'].
    cbn [fst snd zipx]. f_equal.
    rewrite !rot_add, dword_xorl by (apply Hc || apply Hc' || lia).
    symmetry. rewrite !app_xorl; [reflexivity|..];
      rewrite ?rotword_length, !dword_length by (apply Hc || apply Hc' || apply U1 || apply U1' || lia); reflexivity.
Qed.

Lemma imc3_add a b : length a = 16%nat -> length b = 16%nat ->
  aesimc (aesimc (aesimc (xorl a b))) = xorl (aesimc (aesimc (aesimc a))) (aesimc (aesimc (aesimc b))).
Proof. intros. rewrite !aesimc_xorl; auto; repeat apply aesimc_length; assumption. Qed.
Lemma zipx_ok : forall a b, length a = length b -> Forall reg_ok a -> Forall reg_ok b -> Forall reg_ok (zipx a b).
Proof.
  induction a; destruct b; cbn [zipx length]; intros L Ha Hb; try constructor; try discriminate;
  inversion Ha; inversion Hb; subst; [apply reg_xor; assumption|apply IHa; auto].
Qed.
Lemma firstn16_ok t : (16 <= length t)%nat -> is_bytes t -> reg_ok (firstn 16 t).
Proof. intros. split; [rewrite firstn_length; lia|apply is_bytes_firstn; assumption]. Qed.
Lemma reg_imc3 a : reg_ok a -> reg_ok (aesimc (aesimc (aesimc a))).
Proof. intros H. rewrite aesimc3 by assumption. apply reg_columns_mc; [apply H|assumption]. Qed.

Lemma prounds_add first : forall ks ks' m m' t t', length ks = length ks' -> Forall reg_ok ks -> Forall reg_ok ks' ->
  reg_ok m -> reg_ok m' -> is_bytes t -> is_bytes t' -> length t = length t' -> (16 * length ks <= length t)%nat ->
  prounds first (xorl m m') (zipx ks ks') (xorl t t') = xor2 (prounds first m ks t) (prounds false m' ks' t').
Proof.
  induction ks as [|k ks IH]; intros ks' m m' t t' Lk Hk Hk' Hm Hm' Bt Bt' L Hl;
    destruct ks' as [|k' ks']; try discriminate Lk; [reflexivity|].
  inversion Hk as [|? ? K1 K2]; inversion Hk' as [|? ? K1' K2']; subst. cbn [length] in Hl, Lk. apply Nat.succ_inj in Lk.
  assert (F : reg_ok (firstn 16 t)) by (apply firstn16_ok; (assumption || lia)).
  assert (F' : reg_ok (firstn 16 t')) by (apply firstn16_ok; (assumption || lia)).
  pose proof (Rt_ok first _ F) as R. pose proof (Rt_ok false _ F') as R'.
  destruct ks as [|k1 ks]; destruct ks' as [|k1' ks']; try discriminate Lk.
  - cbn [zipx prounds]. unfold xor2. cbn [fst snd]. rewrite firstn_xorl, Rt_add, rows_add by (assumption || apply Hm || apply Hm').
    rewrite (xorl_swap (Rt first (firstn 16 t))). reflexivity.
  - change (zipx (k :: k1 :: ks) (k' :: k1' :: ks')) with (xorl k k' :: zipx (k1 :: ks) (k1' :: ks')).
    assert (U : forall f m kk x y t, prounds f m (kk :: x :: y) t =
      let '(c, out) := prounds f (xorl (aesimc (aesimc (aesimc (Rt f (firstn 16 t))))) kk) (x :: y) (skipn 16 t) in
      (c, rows m ++ out)) by reflexivity.
    rewrite !U. change (zipx (k1 :: ks) (k1' :: ks')) with (xorl k1 k1' :: zipx ks ks'). rewrite U.
    rewrite firstn_xorl, Rt_add, imc3_add by (assumption || apply R || apply R').
    rewrite (xorl_swap (aesimc (aesimc (aesimc (Rt first (firstn 16 t)))))), skipn_xorl.
    change (xorl k1 k1' :: zipx ks ks') with (zipx (k1 :: ks) (k1' :: ks')).
    rewrite IH; try assumption; try (apply is_bytes_skipn; assumption); try (rewrite !skipn_length; lia);
      try (apply reg_xor; [apply reg_imc3; assumption|assumption]).
    destruct (prounds first (xorl (aesimc (aesimc (aesimc (Rt first (firstn 16 t))))) k) (k1 :: ks) (skipn 16 t)) as [c o].
    destruct (prounds false (xorl (aesimc (aesimc (aesimc (Rt false (firstn 16 t'))))) k') (k1' :: ks') (skipn 16 t')) as [c' o'].
    unfold xor2. cbn [fst snd]. f_equal. rewrite rows_add by (apply Hm || apply Hm').
    symmetry. apply app_xorl. rewrite !rows_length. reflexivity.
Qed.
Lemma pblock_add first pt ks ks' t t' : length ks = length ks' -> Forall reg_ok ks -> Forall reg_ok ks' ->
  reg_ok pt -> is_bytes t -> is_bytes t' -> length t = length t' -> (16 * (length ks - 1) <= length t)%nat ->
  pblock first pt (zipx ks ks') (xorl t t') = xor2 (pblock first pt ks t) (pblock false pt ks' t').
Proof.
  intros Lk Hk Hk' Hp Bt Bt' L Hl. destruct ks as [|k ks], ks' as [|k' ks']; try discriminate Lk; [reflexivity|].
  inversion Hk as [|? ? K1 K2]; inversion Hk' as [|? ? K1' K2']; subst. cbn [length] in Hl, Lk. apply Nat.succ_inj in Lk.
  assert (Hz : reg_ok (if first then pt else zeros 16)) by (destruct first; [assumption|apply reg_zeros]).
  cbn [zipx pblock].
  rewrite <- prounds_add; try assumption; try lia; try (apply reg_xor; [assumption|assumption]);
    [|apply reg_xor; [apply reg_zeros|assumption]].
  f_equal. rewrite xorl_swap. f_equal. symmetry. apply xorl_zeros_r. apply Hz.
Qed.

Lemma xor2_app c0 c1 c0' c1' o o0 o1 o' o0' o1' : length c0 = length c0' -> length o = length o' -> length o0 = length o0' ->
  xor2 (c0 ++ c1, o ++ o0 ++ o1) (c0' ++ c1', o' ++ o0' ++ o1') = (xorl c0 c0' ++ xorl c1 c1', xorl o o' ++ xorl o0 o0' ++ xorl o1 o1').
Proof. intros. unfold xor2. cbn [fst snd]. rewrite !app_xorl by assumption. reflexivity. Qed.

Lemma P128_add first k k' t t' pt : reg_ok k -> reg_ok k' -> reg_ok pt -> is_bytes t -> is_bytes t' ->
  length t = 200%nat -> length t' = 200%nat ->
  P128 first (xorl k k') (xorl t t') pt = xor2 (P128 first k t pt) (P128 false k' t' pt).
Proof.
  intros Hk Hk' Hp Bt Bt' L L'. unfold P128.
  assert (Hr : Forall (fun r => r < 256) rcons128) by (repeat constructor).
  rewrite p128_add by (assumption || (cbn [length rcons128]; lia)).
  destruct (mks128_ok first rcons128 k t Hk Hr) as ((O1 & _) & K1 & K2 & O5); [cbn; lia|assumption|].
  destruct (mks128_ok false rcons128 k' t' Hk' Hr) as ((O1' & _) & K1' & K2' & O5'); [cbn; lia|assumption|].
  destruct (p128 first k rcons128 t) as [ks o]. destruct (p128 false k' rcons128 t') as [ks' o']. cbn [fst snd] in *.
  assert (Lk : length ks = length ks') by (exact (eq_trans K1 (eq_sym K1'))).
  rewrite skipn_xorl, pblock_add; try assumption; try (apply is_bytes_skipn; assumption); try (rewrite !skipn_length; lia).
  - destruct (pblock first pt ks (skipn 40 t)) as [c o1]. destruct (pblock false pt ks' (skipn 40 t')) as [c' o1'].
    unfold xor2. cbn [fst snd]. f_equal. symmetry. apply app_xorl. congruence.
  - assert (Ln : length ks = 11%nat) by exact K1. rewrite Ln, skipn_length. lia.
Qed.
Lemma pblock_len first pt ks t n : Forall reg_ok ks -> length ks = S n -> (0 < n)%nat -> reg_ok pt -> is_bytes t -> (16 * n <= length t)%nat ->
  length (fst (pblock first pt ks t)) = 16%nat /\ length (snd (pblock first pt ks t)) = (16 * n)%nat.
Proof.
  intros Hk Lk Hn Hp Bt Lt. destruct ks as [|k ks]; [discriminate Lk|]. inversion Hk; subst. apply Nat.succ_inj in Lk.
  destruct (mpc_block_ok first pt k ks [] t [] (zeros (16 * n))) as (_ & M2 & M3 & _); try assumption; try reflexivity.
  - intros ->. cbn in Lk. lia.
  - refine (eq_ind_r (fun x => (16 * x <= length t)%nat) Lt Lk).
  - rewrite zeros_length. refine (eq_ind_r (fun x => (16 * x <= 16 * n)%nat) (le_n _) Lk).
  - split; [apply M2|]. refine (eq_trans M3 _). exact (f_equal (Nat.mul 16) Lk).
Qed.
Lemma two_add first pt ks ks' o o' t t' n nr : length ks = S nr -> length ks' = S nr -> (0 < nr)%nat ->
  Forall reg_ok ks -> Forall reg_ok ks' -> length pt = 32%nat -> is_bytes pt -> is_bytes t -> is_bytes t' ->
  length o = n -> length o' = n -> length t = length t' -> (n + 32 * nr <= length t)%nat ->
  (let '(c0, o0) := pblock first (firstn 16 pt) (zipx ks ks') (skipn n (xorl t t')) in
   let '(c1, o1) := pblock first (skipn 16 pt) (zipx ks ks') (skipn (16 * nr) (skipn n (xorl t t'))) in
   (c0 ++ c1, xorl o o' ++ o0 ++ o1)) =
  xor2 (let '(c0, o0) := pblock first (firstn 16 pt) ks (skipn n t) in
        let '(c1, o1) := pblock first (skipn 16 pt) ks (skipn (16 * nr) (skipn n t)) in
        (c0 ++ c1, o ++ o0 ++ o1))
       (let '(c0, o0) := pblock false (firstn 16 pt) ks' (skipn n t') in
        let '(c1, o1) := pblock false (skipn 16 pt) ks' (skipn (16 * nr) (skipn n t')) in
        (c0 ++ c1, o' ++ o0 ++ o1)).
Proof.
  intros Lk Lk' Hn Hk Hk' Lp Bp Bt Bt' Lo Lo' L Hl. destruct (pt_halves pt Lp Bp) as (_ & _ & P0 & P1).
  assert (B : is_bytes (skipn n t)) by (apply is_bytes_skipn; assumption).
  assert (B' : is_bytes (skipn n t')) by (apply is_bytes_skipn; assumption).
  assert (LL : length ks = length ks') by (exact (eq_trans Lk (eq_sym Lk'))).
  assert (L1 : (16 * (length ks - 1) <= length (skipn n t))%nat).
  { rewrite skipn_length. refine (eq_ind_r (fun x => (16 * (x - 1) <= _)%nat) _ Lk). lia. }
  assert (L2 : (16 * (length ks - 1) <= length (skipn (16 * nr) (skipn n t)))%nat).
  { rewrite !skipn_length. refine (eq_ind_r (fun x => (16 * (x - 1) <= _)%nat) _ Lk). lia. }
  rewrite !skipn_xorl.
  rewrite !pblock_add; try assumption; try (apply is_bytes_skipn; assumption); try (rewrite !skipn_length; lia).
  destruct (pblock_len first (firstn 16 pt) ks (skipn n t) nr) as [A1 A2]; try assumption; [rewrite skipn_length; lia|].
  destruct (pblock_len false (firstn 16 pt) ks' (skipn n t') nr) as [A1' A2']; try assumption; [rewrite skipn_length; lia|].
  destruct (pblock first (firstn 16 pt) ks (skipn n t)) as [c0 o0].
  destruct (pblock first (skipn 16 pt) ks (skipn (16 * nr) (skipn n t))) as [c1 o1].
  destruct (pblock false (firstn 16 pt) ks' (skipn n t')) as [c0' o0'].
  destruct (pblock false (skipn 16 pt) ks' (skipn (16 * nr) (skipn n t'))) as [c1' o1'].
  cbn [fst snd] in *. rewrite xor2_app by congruence. reflexivity.
Qed.
Lemma P192_add first k k' t t' pt : length k = 24%nat -> is_bytes k -> length k' = 24%nat -> is_bytes k' ->
  length pt = 32%nat -> is_bytes pt -> is_bytes t -> is_bytes t' -> length t = 416%nat -> length t' = 416%nat ->
  P192 first (xorl k k') (xorl t t') pt = xor2 (P192 first k t pt) (P192 false k' t' pt).
Proof.
  intros Lk Bk Lk' Bk' Lp Bp Bt Bt' L L'. unfold P192.
  destruct (reg_192 k Lk Bk) as [H1 H3]. destruct (reg_192 k' Lk' Bk') as [H1' H3'].
  assert (Hr : Forall (fun r => fst r < 256 /\ snd r < 256) rcons192) by (repeat constructor).
  assert (E : firstn 24 (xorl k k') ++ zeros 8 = xorl (firstn 24 k ++ zeros 8) (firstn 24 k' ++ zeros 8)).
  { rewrite app_xorl by (rewrite !firstn_length; lia). rewrite firstn_xorl, xorl_nilpotent. reflexivity. }
  assert (E1 : lo192 (xorl k k') = xorl (lo192 k) (lo192 k')) by (unfold lo192; rewrite E; apply firstn_xorl).
  assert (E2 : hi192 (xorl k k') = xorl (hi192 k) (hi192 k')) by (unfold hi192; rewrite E; apply skipn_xorl).
  rewrite E1, E2. clear E E1 E2. rewrite p192_add by (assumption || (cbn [length rcons192]; lia)).
  destruct (mks192_ok first rcons192 _ _ t H1 H3 Hr) as ((O1 & _) & K1 & K2 & O5); [cbn; lia|assumption|].
  destruct (mks192_ok false rcons192 _ _ t' H1' H3' Hr) as ((O1' & _) & K1' & K2' & O5'); [cbn; lia|assumption|].
  destruct (p192 first (lo192 k) (hi192 k) rcons192 t) as [ks o].
  destruct (p192 false (lo192 k') (hi192 k') rcons192 t') as [ks' o']. cbn [fst snd] in *.
  apply (two_add first pt ks ks' o o' t t' 32 12); try assumption; try lia.
Qed.
Lemma P256_add first k k' t t' pt : length k = 32%nat -> is_bytes k -> length k' = 32%nat -> is_bytes k' ->
  length pt = 32%nat -> is_bytes pt -> is_bytes t -> is_bytes t' -> length t = 500%nat -> length t' = 500%nat ->
  P256 first (xorl k k') (xorl t t') pt = xor2 (P256 first k t pt) (P256 false k' t' pt).
Proof.
  intros Lk Bk Lk' Bk' Lp Bp Bt Bt' L L'. unfold P256.
  destruct (reg_256 k Lk Bk) as [H1 H3]. destruct (reg_256 k' Lk' Bk') as [H1' H3'].
  assert (Hr : Forall (fun r => r < 256) rcons256) by (repeat constructor).
  rewrite firstn_xorl, (skipn_xorl 16 k). rewrite p256_add by (assumption || (cbn [length rcons256]; lia)).
  destruct (mks256_ok first rcons256 _ _ t H1 H3 Hr) as ((O1 & _) & K1 & K2 & O5); [cbn; lia|assumption|].
  destruct (mks256_ok false rcons256 _ _ t' H1' H3' Hr) as ((O1' & _) & K1' & K2' & O5'); [cbn; lia|assumption|].
  destruct (p256 first (firstn 16 k) (skipn 16 k) rcons256 t) as [ks o].
  destruct (p256 false (firstn 16 k') (skipn 16 k') rcons256 t') as [ks' o']. cbn [fst snd] in *.
  apply (two_add first pt ks ks' o o' t t' 52 14); try assumption; try lia.
Qed.
