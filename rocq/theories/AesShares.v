(** All parties of the share evaluation together. *)
From Coq Require Import Arith NArith List Bool Lia Btauto.
From Verif Require Import Prelude Clmul Gf8 AesSpec AesModel AesBase AesKs AesPlain AesApi AesMpc AesLin AesHonest.
Import ListNotations.
Local Open Scope N_scope.

(** exclusive or of a list of strings of n bytes *)
Definition xall (n : nat) (l : list bytes) : bytes := fold_right xorl (zeros n) l.

Definition aes_n_s_shares (nk : nat) : list bytes -> list bytes -> bytes -> nat -> res (list (bytes * bytes)) :=
  match nk with 4%nat => aes_128_s_shares | 6%nat => aes_192_s_shares | _ => aes_256_s_shares end.
Definition Pn (nk : nat) : bool -> bytes -> bytes -> bytes -> bytes * bytes :=
  match nk with 4%nat => P128 | 6%nat => P192 | _ => P256 end.
Definition party_n (nk : nat) : bool -> bytes -> bytes -> bytes -> nat -> res (bytes * bytes) :=
  match nk with 4%nat => party_128 | 6%nat => party_192 | _ => party_256 end.

Definition str (n : nat) (b : bytes) : Prop := length b = n /\ is_bytes b.
Definition nk_ok (nk : nat) : Prop := In nk [4;6;8]%nat.
Ltac nk_cases H := destruct H as [<-|[<-|[<-|[]]]].

Lemma Pn_ok nk first key t pt : nk_ok nk -> str (4 * nk) key -> str (nsboxes nk) t -> str (16 * nblocks nk) pt ->
  party_n nk first key t pt (nsboxes nk) = Ok (Pn nk first key t pt) /\
  str (16 * nblocks nk) (fst (Pn nk first key t pt)) /\ str (nsboxes nk) (snd (Pn nk first key t pt)).
Proof.
  intros H [Lk Bk] [Lt Bt] [Lp Bp]. nk_cases H.
  - destruct (party_128_ok first key t pt (conj Lk Bk) (conj Lp Bp) Lt Bt) as (E & A & B & C & D). repeat split; assumption.
  - destruct (party_192_ok first key t pt Lk Bk Lp Bp Lt Bt) as (E & A & B & C & D). repeat split; assumption.
  - destruct (party_256_ok first key t pt Lk Bk Lp Bp Lt Bt) as (E & A & B & C & D). repeat split; assumption.
Qed.
Lemma Pn_add nk first k k' t t' pt : nk_ok nk -> str (4 * nk) k -> str (4 * nk) k' -> str (nsboxes nk) t -> str (nsboxes nk) t' ->
  str (16 * nblocks nk) pt ->
  Pn nk first (xorl k k') (xorl t t') pt = xor2 (Pn nk first k t pt) (Pn nk false k' t' pt).
Proof.
  intros H [Lk Bk] [Lk' Bk'] [Lt Bt] [Lt' Bt'] [Lp Bp]. nk_cases H.
  - apply P128_add; try split; assumption.
  - apply P192_add; assumption.
  - apply P256_add; assumption.
Qed.
Lemma Pn_honest nk key t pt : nk_ok nk -> str (4 * nk) key -> str (nsboxes nk) t -> str (16 * nblocks nk) pt ->
  (consistent t (snd (Pn nk true key t pt)) \/ consistent t (sbox_trace nk key (blocks nk pt))) ->
  Pn nk true key t pt = (flat_map (cipher nk key) (blocks nk pt), sbox_trace nk key (blocks nk pt)).
Proof.
  intros H [Lk Bk] [Lt Bt] [Lp Bp] A. nk_cases H.
  - refine (eq_trans (P128_honest key t pt (conj Lk Bk) (conj Lp Bp) Lt A) _).
    apply (f_equal2 (@pair _ _)); [symmetry; exact (app_nil_r (cipher 4 key pt))|reflexivity].
  - exact (P192_honest key t pt Lk Bk Lp Bp Lt Bt A).
  - exact (P256_honest key t pt Lk Bk Lp Bp Lt Bt A).
Qed.

Lemma str_xorl n a b : str n a -> str n b -> str n (xorl a b).
Proof. intros [? ?] [? ?]. split; [apply xorl_length_eq; assumption|apply is_bytes_xorl; assumption]. Qed.
Lemma str_zeros n : str n (zeros n).
Proof. split; [apply repeat_length|apply is_bytes_zeros]. Qed.
Lemma str_xall n l : Forall (str n) l -> str n (xall n l).
Proof. induction 1; cbn [xall fold_right]; [apply str_zeros|apply str_xorl; assumption]. Qed.

Section Parties.
Variables (nk : nat) (pt : bytes).
Hypothesis Hnk : nk_ok nk.
Hypothesis Hpt : str (16 * nblocks nk) pt.
Local Notation P := (Pn nk).
Local Notation kl := (4 * nk)%nat.
Local Notation tl := (nsboxes nk).
Local Notation cl := (16 * nblocks nk)%nat.

(** parties 1, 2, ... *)
Lemma P_false_zero : P false (zeros kl) (zeros tl) pt = (zeros cl, zeros tl).
Proof.
  destruct (Pn_ok nk false (zeros kl) (zeros tl) pt Hnk (str_zeros _) (str_zeros _) Hpt) as (_ & [C1 C2] & [S1 S2]).
  pose proof (Pn_add nk false (zeros kl) (zeros kl) (zeros tl) (zeros tl) pt Hnk (str_zeros _) (str_zeros _) (str_zeros _) (str_zeros _) Hpt) as A.
  rewrite !xorl_nilpotent, !zeros_length in A.  destruct (P false (zeros kl) (zeros tl) pt) as [c s].
  cbn [fst snd] in *. unfold xor2 in A. cbn [fst snd] in A. injection A as A1 A2.
  rewrite xorl_nilpotent, C1 in A1. rewrite xorl_nilpotent, S1 in A2. subst. reflexivity.
Qed.
Lemma P_false_sum : forall keys ts, length keys = length ts -> Forall (str kl) keys -> Forall (str tl) ts ->
  let rs := map (fun p => P false (fst p) (snd p) pt) (combine keys ts) in
  P false (xall kl keys) (xall tl ts) pt = (xall cl (map fst rs), xall tl (map snd rs)).
Proof.
  induction keys as [|k keys IH]; intros [|t ts] L Hk Ht; try discriminate L; [apply P_false_zero|].
  inversion Hk; inversion Ht; subst. cbn [xall fold_right combine map fst snd].
  rewrite Pn_add; try assumption; try (apply str_xall; assumption).
  fold (xall kl keys). fold (xall tl ts). rewrite IH by (assumption || (cbn in L; lia)). reflexivity.
Qed.
(** all parties *)
Lemma P_sum k t keys ts : length keys = length ts -> Forall (str kl) (k :: keys) -> Forall (str tl) (t :: ts) ->
  let rs := P true k t pt :: map (fun p => P false (fst p) (snd p) pt) (combine keys ts) in
  P true (xall kl (k :: keys)) (xall tl (t :: ts)) pt = (xall cl (map fst rs), xall tl (map snd rs)).
Proof.
  intros L Hk Ht rs. inversion Hk; inversion Ht; subst. unfold rs. cbn [xall fold_right combine map fst snd].
  rewrite Pn_add; try assumption; try (apply str_xall; assumption).
  fold (xall kl keys). fold (xall tl ts). rewrite P_false_sum by assumption. reflexivity.
Qed.

Lemma seq_get_gen {A B} (f : bool -> A -> A -> res B) (g : bool -> A -> A -> B) (keys ts pk pt' : list A) :
  length keys = length ts -> length pk = length pt' -> (0 < length pk)%nat ->
  (forall k t, In (k, t) (combine keys ts) -> f false k t = Ok (g false k t)) ->
  mapM (fun p => bind (get (pk ++ keys) p) (fun k => bind (get (pt' ++ ts) p) (fun t => f (p =? 0)%nat k t)))
       (seq (length pk) (length keys)) = Ok (map (fun p => g false (fst p) (snd p)) (combine keys ts)).
Proof.
  revert ts pk pt'. induction keys as [|k keys IH]; intros [|t ts] pk pt' L Lp Hp Hf; try discriminate L; [reflexivity|].
  cbn [length seq]. cbn [mapM].
  rewrite get_app by reflexivity. cbn [bind]. rewrite (get_app pt' ts t) by congruence. cbn [bind].
  destruct (Nat.eqb_spec (length pk) 0); [lia|]. rewrite Hf by (left; reflexivity). cbn [bind].
  specialize (IH ts (pk ++ [k]) (pt' ++ [t])).
  rewrite <- !app_assoc in IH. cbn [app] in IH. rewrite !app_length in IH. cbn [length] in IH.
  replace (length pk + 1)%nat with (S (length pk)) in IH by lia.
  rewrite IH; [reflexivity|cbn in L; lia|lia|lia|intros; apply Hf; right; assumption].
Qed.
Lemma s_shares_n keys ts n : aes_n_s_shares nk keys ts pt n = s_shares (party_n nk) keys ts pt n.
Proof. revert Hnk. intros H. nk_cases H; reflexivity. Qed.
Lemma s_shares_ok k t keys ts : length keys = length ts -> Forall (str kl) (k :: keys) -> Forall (str tl) (t :: ts) ->
  aes_n_s_shares nk (k :: keys) (t :: ts) pt (nsboxes nk) =
  Ok (P true k t pt :: map (fun p => P false (fst p) (snd p) pt) (combine keys ts)).
Proof.
  intros L Hk Ht. rewrite s_shares_n. unfold s_shares. cbn [length seq mapM].
  inversion Hk as [|? ? K1 K2]; inversion Ht as [|? ? T1 T2]; subst.
  unfold get at 1 2. cbn [nth_error bind Nat.eqb].
  destruct (Pn_ok nk true k t pt Hnk K1 T1 Hpt) as [E _]. rewrite E. cbn [bind].
  pose proof (seq_get_gen (fun b k t => party_n nk b k t pt (nsboxes nk)) (fun b k t => Pn nk b k t pt) keys ts [k] [t]) as G.
  cbn [app length] in G. rewrite G; [reflexivity|assumption|reflexivity|lia|].
  intros k1 t1 Hin. apply Pn_ok; try assumption.
  - apply in_combine_l in Hin. rewrite Forall_forall in K2. apply K2; assumption.
  - apply in_combine_r in Hin. rewrite Forall_forall in T2. apply T2; assumption.
Qed.
End Parties.

(** ** API statements *)
Definition shares_in (nk : nat) (keys ts : list bytes) (pt : bytes) : Prop :=
  nk_ok nk /\ keys <> [] /\ length ts = length keys /\ Forall (str (4 * nk)) keys /\ Forall (str (nsboxes nk)) ts /\
  str (16 * nblocks nk) pt.
Definition ct_of (nk : nat) (rs : list (bytes * bytes)) : bytes := xall (16 * nblocks nk) (map fst rs).
Definition s_of (nk : nat) (rs : list (bytes * bytes)) : bytes := xall (nsboxes nk) (map snd rs).

Lemma shares_run nk keys ts pt : shares_in nk keys ts pt ->
  exists rs, aes_n_s_shares nk keys ts pt (nsboxes nk) = Ok rs /\ length rs = length keys /\
    Forall (fun r => str (16 * nblocks nk) (fst r) /\ str (nsboxes nk) (snd r)) rs /\
    Pn nk true (xall (4 * nk) keys) (xall (nsboxes nk) ts) pt = (ct_of nk rs, s_of nk rs).
Proof.
  intros (H & Hn & L & Hk & Ht & Hp). destruct keys as [|k keys]; [congruence|]. destruct ts as [|t ts]; [discriminate L|].
  assert (L' : length keys = length ts) by (cbn [length] in L; lia). clear L. eexists. split; [apply s_shares_ok; auto|].
  split; [cbn [length]; apply f_equal; rewrite map_length, combine_length, L'; apply Nat.min_id|]. split.
  - inversion Hk as [|? ? K1 K2]; inversion Ht as [|? ? T1 T2]; subst.
    constructor; [apply Pn_ok; assumption|]. apply Forall_map, Forall_forall. intros [k1 t1] Hin. cbn [fst snd].
    apply Pn_ok; try assumption.
    + apply in_combine_l in Hin. rewrite Forall_forall in K2. apply K2; assumption.
    + apply in_combine_r in Hin. rewrite Forall_forall in T2. apply T2; assumption.
  - unfold ct_of, s_of. apply P_sum; auto.
Qed.

Lemma shares_aes_in nk keys ts pt : shares_in nk keys ts pt -> aes_in nk (xall (4 * nk) keys) pt.
Proof.
  intros (H & Hn & L & Hk & Ht & [Lp Bp]). destruct (str_xall _ _ Hk) as [Lk Bk].
  split; [assumption|]. repeat split; assumption.
Qed.
(** completeness: shares of the recorded inverses *)
Lemma shares_complete nk keys ts pt s t ct : shares_in nk keys ts pt ->
  aes_n_save nk (xall (4 * nk) keys) pt = ((s, t), Some ct) -> xall (nsboxes nk) ts = t ->
  exists rs, aes_n_s_shares nk keys ts pt (nsboxes nk) = Ok rs /\ ct_of nk rs = ct /\ s_of nk rs = s.
Proof.
  intros H E Et. pose proof (shares_aes_in _ _ _ _ H) as Hin.
  destruct (shares_run _ _ _ _ H) as (rs & E1 & _ & _ & E2). exists rs. split; [assumption|].
  destruct (records_some _ _ _ ct (aes_records _ _ _ Hin)) as (_ & -> & X); [rewrite E; reflexivity|].
  rewrite E in X. injection X as -> ->.
  destruct H as (H & Hn & L & Hk & Ht & Hp).
  rewrite Pn_honest in E2; try assumption; try (apply str_xall; assumption); [injection E2; auto|].
  right. exact Et.
Qed.

(** soundness: the only t that multiplies with the resulting s to ones is the honest one *)
Lemma gf8_inv_unique a b : a < 256 -> b < 256 -> gf8_mul a b = 1 -> b = inverse a /\ a <> 0.
Proof.
  intros Ha Hb H.
  assert (Hz : a <> 0).
  { intros ->. unfold gf8_mul in H. rewrite clmul_0_l in H. vm_compute in H. discriminate H. }
  split; [|assumption]. pose proof (inverse_byte a Ha) as Hi. pose proof (inverse_gf8 a Ha Hz) as H1.
  destruct (gf8_mul_spec a b Ha Hb) as [_ C]. rewrite H in C.
  destruct (gf8_mul_spec a (inverse a) Ha Hi) as [_ C1]. rewrite H1 in C1.
  apply gf8_cong_eq; try assumption. apply cong_trans with (clmul b (clmul a (inverse a))).
  - rewrite <- (clmul_1_r b) at 1. apply cong_clmul; [apply cong_refl|apply cong_sym; exact C1].
  - rewrite <- clmul_assoc, (clmul_comm b a). rewrite <- (clmul_1_l (inverse a)) at 2.
    apply cong_clmul; [exact C|apply cong_refl].
Qed.

Lemma shares_sound nk keys ts pt rs : shares_in nk keys ts pt ->
  aes_n_s_shares nk keys ts pt (nsboxes nk) = Ok rs ->
  (forall i, (i < nsboxes nk)%nat -> fmul (nth i (s_of nk rs) 0) (nth i (xall (nsboxes nk) ts) 0) = 1) ->
  aes_n_save nk (xall (4 * nk) keys) pt = ((s_of nk rs, xall (nsboxes nk) ts), Some (ct_of nk rs)).
Proof.
  intros H E1 Hm. pose proof (shares_aes_in _ _ _ _ H) as Hin.
  destruct (shares_run _ _ _ _ H) as (rs' & E1' & _ & Hl & E2). rewrite E1 in E1'. injection E1' as <-.
  pose proof H as (H1 & Hn & L & Hk & Ht & Hp).
  destruct (str_xall _ _ Ht) as [Lt Bt].
  assert (Hs : str (nsboxes nk) (s_of nk rs)).
  { apply str_xall. apply Forall_map. eapply Forall_impl; [|exact Hl]. intros r [_ Hr]. exact Hr. }
  destruct Hs as [Ls Bs].
  assert (Hi : forall i, (i < nsboxes nk)%nat -> nth i (xall (nsboxes nk) ts) 0 = inverse (nth i (s_of nk rs) 0) /\ nth i (s_of nk rs) 0 <> 0).
  { intros i Hlt. assert (A : nth i (s_of nk rs) 0 < 256) by (apply is_bytes_nth; assumption).
    assert (B : nth i (xall (nsboxes nk) ts) 0 < 256) by (apply is_bytes_nth; assumption).
    apply gf8_inv_unique; try assumption. rewrite <- fmul_gf8 by assumption. apply Hm; assumption. }
  assert (Hc : xall (nsboxes nk) ts = map inverse (s_of nk rs)).
  { apply (nth_ext _ _ 0 0); [rewrite map_length; congruence|]. intros i Hlt. rewrite Lt in Hlt.
    rewrite nth_indep with (d' := inverse 0) (l := map inverse (s_of nk rs)) by (rewrite map_length, Ls; exact Hlt).
    rewrite map_nth. apply Hi; assumption. }
  rewrite Pn_honest in E2; try assumption; try (apply str_xall; assumption);
    [|left; unfold consistent; rewrite E2; exact Hc].
  pose proof (f_equal snd E2) as E3. apply (f_equal fst) in E2. cbn [fst snd] in E2, E3.
  destruct (aes_records _ _ _ Hin) as [_ R]. rewrite R.
  - rewrite E3, E2, Hc. reflexivity.
  - rewrite E3. intros Hz. apply (In_nth _ _ 0) in Hz. destruct Hz as (i & Hlt & Hz). apply (proj2 (Hi i ltac:(congruence))). exact Hz.
Qed.
Lemma shares_defined nk keys ts pt : shares_in nk keys ts pt ->
  exists rs, aes_n_s_shares nk keys ts pt (nsboxes nk) = Ok rs /\ length rs = length keys /\
    Forall (fun r => str (16 * nblocks nk) (fst r) /\ str (nsboxes nk) (snd r)) rs.
Proof. intros H. destruct (shares_run _ _ _ _ H) as (rs & A & B & C & _). exists rs. auto. Qed.
