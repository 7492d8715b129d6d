(** The forger's S-box outputs: with the zero key they make the share evaluation end in the wanted ciphertext. *)
From Coq Require Import Arith NArith List Bool Lia.
From Verif Require Import Prelude Clmul Gf8 AesSpec AesModel AesBase AesKs AesPlain AesApi AesMpc AesLin AesHonest AesShares Forge.
Import ListNotations.
Local Open Scope N_scope.

Lemma unaffine_ok x : x < 256 -> affine_lin (unaffine x) = x /\ unaffine x < 256.
Proof.
  intros H. apply (proj2 (A := True)). split; [exact Logic.I|].
  assert (G : (affine_lin (unaffine x) =? x) && (unaffine x <? 256) = true).
  { apply (all_bytes_spec (fun s => (affine_lin (unaffine s) =? s) && (unaffine s <? 256))); [vm_compute; reflexivity|exact H]. }
  apply andb_prop in G. destruct G as [G1 G2]. split; [apply N.eqb_eq; exact G1|apply N.ltb_lt; exact G2].
Qed.
Lemma untr_str y : str 16 y -> str 16 (untr y) /\ Rt false (untr y) = y.
Proof.
  intros [L B]. do 16 (destruct y as [|?x y]; [discriminate L|]). destruct y; [|discriminate L].
  repeat match goal with h : is_bytes (_ :: _) |- _ => inversion h; clear h; subst end.
  unfold is_bytes in *. repeat match goal with h : Forall _ (_ :: _) |- _ => inversion h; clear h; subst end.
  split.
  - split; [reflexivity|]. unfold untr, shuffle_epi8, is_bytes. cbn [map nth]. repeat constructor; apply unaffine_ok; assumption.
  - unfold Rt, untr, shuffle_epi8, t_shuf. cbn [map nth]. unfold aff. rewrite !N.lxor_0_r.
    repeat match goal with |- context [affine_lin (unaffine ?z)] => rewrite (proj1 (unaffine_ok z ltac:(assumption))) end. reflexivity.
Qed.
Lemma prounds_last f : forall ks m t, ks <> [] ->
  fst (prounds f m ks t) = xorl (Rt f (firstn 16 (skipn (16 * (length ks - 1)) t))) (last ks []).
Proof.
  induction ks as [|k [|k' ks] IH]; intros m t H; [congruence| |].
  - cbn [prounds fst length Nat.sub Nat.mul skipn last]. reflexivity.
  - change (prounds f m (k :: k' :: ks) t) with
      (let '(c, out) := prounds f (xorl (aesimc (aesimc (aesimc (Rt f (firstn 16 t))))) k) (k' :: ks) (skipn 16 t) in (c, rows m ++ out)).
    specialize (IH (xorl (aesimc (aesimc (aesimc (Rt f (firstn 16 t))))) k) (skipn 16 t) ltac:(discriminate)).
    destruct (prounds f _ (k' :: ks) (skipn 16 t)) as [c o]. cbn [fst] in *. rewrite IH. rewrite <- skipn_plus.
    replace (16 + 16 * (length (k' :: ks) - 1))%nat with (16 * (length (k :: k' :: ks) - 1))%nat by (cbn [length]; lia). reflexivity.
Qed.
Lemma pblock_last f pt k0 ks t : ks <> [] ->
  fst (pblock f pt (k0 :: ks) t) = xorl (Rt f (firstn 16 (skipn (16 * (length ks - 1)) t))) (last ks []).
Proof. intros H. unfold pblock. apply prounds_last. exact H. Qed.
Lemma zeros_ks128 w : fst (p128 false (zeros 16) rcons128 (zeros 184 ++ w)) = repeat (zeros 16) 11.
Proof. vm_compute. reflexivity. Qed.
Lemma zeros_ks192 w : fst (p192 false (lo192 (zeros 24)) (hi192 (zeros 24)) rcons192 (zeros 208 ++ w)) = repeat (zeros 16) 13.
Proof. vm_compute. reflexivity. Qed.
Lemma zeros_ks256 w : fst (p256 false (firstn 16 (zeros 32)) (skipn 16 (zeros 32)) rcons256 (zeros 260 ++ w)) = repeat (zeros 16) 15.
Proof. vm_compute. reflexivity. Qed.
Lemma skipn_zeros k m (w : bytes) : (k <= m)%nat -> skipn k (zeros m ++ w) = zeros (m - k) ++ w.
Proof.
  intros H. rewrite skipn_app. unfold zeros. rewrite repeat_length. replace (k - m)%nat with 0%nat by lia. cbn [skipn]. f_equal.
  replace m with (k + (m - k))%nat at 1 by lia. rewrite repeat_app.
  rewrite <- (repeat_length 0 k) at 1. apply skipn_exact.
Qed.
Lemma firstn_str (a b : bytes) n : length a = n -> firstn n (a ++ b) = a.
Proof. intros <-. apply firstn_exact. Qed.
Lemma skipn_str (a b : bytes) n : length a = n -> skipn n (a ++ b) = b.
Proof. intros <-. apply skipn_exact. Qed.
Lemma xorl_zeros16 y : str 16 y -> xorl y (zeros 16) = y.
Proof. intros [L _]. apply xorl_zeros_r. exact L. Qed.

Lemma zero_block pt k t w y : str 16 y -> skipn (16 * k) t = untr y ++ w ->
  fst (pblock false pt (repeat (zeros 16) (S (S k))) t) = y.
Proof.
  intros Hy E. destruct (untr_str y Hy) as [[U _] R]. change (repeat (zeros 16) (S (S k))) with (zeros 16 :: repeat (zeros 16) (S k)).
  rewrite pblock_last by discriminate. rewrite repeat_length. replace (S k - 1)%nat with k by lia. rewrite E, firstn_str by exact U. rewrite R.
  assert (L : last (repeat (zeros 16) (S k)) [] = zeros 16).
  { clear. induction k; [reflexivity|]. exact IHk. }
  refine (eq_trans (f_equal (xorl y) L) _). apply xorl_zeros16. exact Hy.
Qed.
Lemma fake_last_ok nk x pt : nk_ok nk -> str (16 * nblocks nk) x ->
  str (nsboxes nk) (fake_last (4 * nk) x) /\ fst (Pn nk false (zeros (4 * nk)) (fake_last (4 * nk) x) pt) = x.
Proof.
  intros Hn Hx. assert (SZ : forall k, str k (zeros k)) by (intros; apply str_zeros).
  assert (SA : forall k m (a b : bytes), str k a -> str m b -> str (k + m) (a ++ b)).
  { intros k m a b [A B] [C D]. split; [rewrite app_length; congruence|apply is_bytes_app; assumption]. }
  nk_cases Hn.
  - change (16 * nblocks 4)%nat with 16%nat in Hx. destruct (untr_str x Hx) as [U R].
    change (fake_last (4 * 4) x) with (zeros 184 ++ untr x). split; [exact (SA 184%nat 16%nat _ _ (SZ _) U)|].
    unfold Pn, P128. change (4 * 4)%nat with 16%nat. pose proof (zeros_ks128 (untr x)) as K.
    destruct (p128 false (zeros 16) rcons128 (zeros 184 ++ untr x)) as [ks o]. cbn [fst] in K. subst ks.
    pose proof (zero_block pt 9 (skipn 40 (zeros 184 ++ untr x)) [] x Hx) as Z.
    destruct (pblock false pt (repeat (zeros 16) 11) (skipn 40 (zeros 184 ++ untr x))) as [c o1]. cbn [fst] in *. apply Z.
    rewrite app_nil_r, <- skipn_plus, skipn_zeros by lia. reflexivity.
  - change (16 * nblocks 6)%nat with 32%nat in Hx. destruct Hx as [Lx Bx].
    assert (H0 : str 16 (firstn 16 x)) by (split; [rewrite firstn_length; lia|apply is_bytes_firstn; exact Bx]).
    assert (H1 : str 16 (skipn 16 x)) by (split; [rewrite skipn_length; lia|apply is_bytes_skipn; exact Bx]).
    destruct (untr_str _ H0) as [U0 R0]. destruct (untr_str _ H1) as [U1 R1].
    change (fake_last (4 * 6) x) with (zeros 208 ++ untr (firstn 16 x) ++ zeros 176 ++ untr (skipn 16 x)).
    set (u0 := untr (firstn 16 x)) in *. set (u1 := untr (skipn 16 x)) in *.
    split; [exact (SA 208%nat 208%nat _ _ (SZ _) (SA 16%nat 192%nat _ _ U0 (SA 176%nat 16%nat _ _ (SZ _) U1)))|].
    unfold Pn, P192. change (4 * 6)%nat with 24%nat. pose proof (zeros_ks192 (u0 ++ zeros 176 ++ u1)) as K.
    destruct (p192 false (lo192 (zeros 24)) (hi192 (zeros 24)) rcons192 (zeros 208 ++ u0 ++ zeros 176 ++ u1)) as [ks o]. cbn [fst] in K. subst ks.
    pose proof (zero_block (firstn 16 pt) 11 (skipn 32 (zeros 208 ++ u0 ++ zeros 176 ++ u1)) (zeros 176 ++ u1) _ H0) as Z0.
    pose proof (zero_block (skipn 16 pt) 11 (skipn 192 (skipn 32 (zeros 208 ++ u0 ++ zeros 176 ++ u1))) [] _ H1) as Z1.
    destruct (pblock false (firstn 16 pt) (repeat (zeros 16) 13) (skipn 32 (zeros 208 ++ u0 ++ zeros 176 ++ u1))) as [c0 o0].
    destruct (pblock false (skipn 16 pt) (repeat (zeros 16) 13) (skipn 192 (skipn 32 (zeros 208 ++ u0 ++ zeros 176 ++ u1)))) as [c1 o1].
    cbn [fst] in *. rewrite Z0, Z1; [apply firstn_skipn| |].
    + fold u1. rewrite app_nil_r, <- !skipn_plus. change (32 + 192 + 16 * 11)%nat with (208 + (16 + 176))%nat.
      rewrite (skipn_plus 208 (16 + 176)), skipn_zeros by lia. change (zeros (208 - 208)) with (@nil N). cbn [app]. rewrite skipn_plus.
      rewrite (skipn_str u0) by apply U0. rewrite skipn_zeros by lia. reflexivity.
    + fold u0. rewrite <- skipn_plus. change (32 + 16 * 11)%nat with 208%nat. rewrite skipn_zeros by lia. reflexivity.
  - change (16 * nblocks 8)%nat with 32%nat in Hx. destruct Hx as [Lx Bx].
    assert (H0 : str 16 (firstn 16 x)) by (split; [rewrite firstn_length; lia|apply is_bytes_firstn; exact Bx]).
    assert (H1 : str 16 (skipn 16 x)) by (split; [rewrite skipn_length; lia|apply is_bytes_skipn; exact Bx]).
    destruct (untr_str _ H0) as [U0 R0]. destruct (untr_str _ H1) as [U1 R1].
    change (fake_last (4 * 8) x) with (zeros 260 ++ untr (firstn 16 x) ++ zeros 208 ++ untr (skipn 16 x)).
    set (u0 := untr (firstn 16 x)) in *. set (u1 := untr (skipn 16 x)) in *.
    split; [exact (SA 260%nat 240%nat _ _ (SZ _) (SA 16%nat 224%nat _ _ U0 (SA 208%nat 16%nat _ _ (SZ _) U1)))|].
    unfold Pn, P256. change (4 * 8)%nat with 32%nat. pose proof (zeros_ks256 (u0 ++ zeros 208 ++ u1)) as K.
    destruct (p256 false (firstn 16 (zeros 32)) (skipn 16 (zeros 32)) rcons256 (zeros 260 ++ u0 ++ zeros 208 ++ u1)) as [ks o]. cbn [fst] in K. subst ks.
    pose proof (zero_block (firstn 16 pt) 13 (skipn 52 (zeros 260 ++ u0 ++ zeros 208 ++ u1)) (zeros 208 ++ u1) _ H0) as Z0.
    pose proof (zero_block (skipn 16 pt) 13 (skipn 224 (skipn 52 (zeros 260 ++ u0 ++ zeros 208 ++ u1))) [] _ H1) as Z1.
    destruct (pblock false (firstn 16 pt) (repeat (zeros 16) 15) (skipn 52 (zeros 260 ++ u0 ++ zeros 208 ++ u1))) as [c0 o0].
    destruct (pblock false (skipn 16 pt) (repeat (zeros 16) 15) (skipn 224 (skipn 52 (zeros 260 ++ u0 ++ zeros 208 ++ u1)))) as [c1 o1].
    cbn [fst] in *. rewrite Z0, Z1; [apply firstn_skipn| |].
    + fold u1. rewrite app_nil_r, <- !skipn_plus. change (52 + 224 + 16 * 13)%nat with (260 + (16 + 208))%nat.
      rewrite (skipn_plus 260 (16 + 208)), skipn_zeros by lia. change (zeros (260 - 260)) with (@nil N). cbn [app]. rewrite skipn_plus.
      rewrite (skipn_str u0) by apply U0. rewrite skipn_zeros by lia. reflexivity.
    + fold u0. rewrite <- skipn_plus. change (52 + 16 * 13)%nat with 260%nat. rewrite skipn_zeros by lia. reflexivity.
Qed.
(** the whole evaluation: first the zero outputs, then the correction *)
Lemma fake_ok nk pt ct : nk_ok nk -> str (16 * nblocks nk) pt -> str (16 * nblocks nk) ct ->
  let c0 := fst (Pn nk true (zeros (4 * nk)) (zeros (nsboxes nk)) pt) in
  let t := fake_last (4 * nk) (xorl c0 ct) in
  str (nsboxes nk) t /\ exists s, Pn nk true (zeros (4 * nk)) t pt = (ct, s) /\ str (nsboxes nk) s.
Proof.
  intros Hn Hp Hc c0 t. destruct (Pn_ok nk true (zeros (4 * nk)) (zeros (nsboxes nk)) pt Hn (str_zeros _) (str_zeros _) Hp) as (_ & S0 & S1).
  fold c0 in S0. destruct (fake_last_ok nk (xorl c0 ct) pt Hn (str_xorl _ _ _ S0 Hc)) as [St F]. fold t in St, F. split; [exact St|].
  pose proof (Pn_add nk true (zeros (4 * nk)) (zeros (4 * nk)) (zeros (nsboxes nk)) t pt Hn (str_zeros _) (str_zeros _) (str_zeros _) St Hp) as A.
  assert (Z : forall k (a : bytes), length a = k -> xorl (zeros k) a = a) by (intros k a L; rewrite xorl_comm; apply xorl_zeros_r; exact L).
  rewrite (Z _ (zeros (4 * nk))) in A by apply str_zeros. rewrite (Z _ t) in A by apply St.
  destruct (Pn_ok nk true (zeros (4 * nk)) t pt Hn (str_zeros _) St Hp) as (_ & _ & S2).
  exists (snd (Pn nk true (zeros (4 * nk)) t pt)). split; [|exact S2].
  rewrite (surjective_pairing (Pn nk true (zeros (4 * nk)) t pt)) at 1. f_equal. rewrite A. unfold xor2. cbn [fst]. rewrite F. fold c0.
  rewrite <- xorl_assoc, xorl_nilpotent. rewrite Z; [reflexivity|]. rewrite (proj1 S0). apply Hc.
Qed.
