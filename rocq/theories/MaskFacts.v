(** The disclosed values of a repetition: the hidden party's tape masks them perfectly. *)
From Coq Require Import Arith NArith List Bool Lia.
From Verif Require Import Prelude FieldModel FieldSpec FieldApi FieldLin PolyModel Instances HashModel TreeModel TreeSpec TreeApi TreeRev AesSpec AesModel AesBase AesApi AesShares BanquetModel ContainerModel ListSum BanquetHash BanquetPure BanquetVerify BanquetSign BanquetPoly BanquetCtx BanquetRun Serialize BanquetApi ShareFacts TapeFacts MaskSpec FreeSpec.
Import ListNotations.

Section Mask.
Variables (I : instance) (c : fctx) (nk : nat).
Hypothesis OK : inst_ok I c nk.
Let HI := io_field _ _ _ OK.
Notation E := (elt (lambda I)).
Notation ks := (key_size (i_aes I)).
Notation sb := (num_sboxes (i_aes I)).
Notation lam := (lambda I).
Notation n := (num_parties I).
Notation M1 := (m1 I).
Notation M2 := (m2 I).
Notation H0 := (horner gadd (gmul c)).
Variables (pre1 pre2 : list (list N)).
Hypothesis G1 : lagr lam c (xs1 I c) pre1.
Hypothesis G2 : lagr lam c (xs2 I c) pre2.
Variable rs : list N.
Hypothesis Lr : length rs = M1.
Hypothesis Fr : Forall E rs.
Variable R : N.
Hypothesis HR : E R.

(** the opened values and the product as functions of the sums of the masks *)
Definition Av (s : bytes) (sm : nat -> N) (j : nat) (x : N) : N := ax I c pre1 s (nth j rs 0%N) (sm j) j x.
Definition Bv (t : bytes) (tm : nat -> N) (j : nat) (x : N) : N := bx I c pre1 t (tm j) j x.
Definition Cv (s t : bytes) (sm tm : nat -> N) (x : N) : N := gsum M1 (fun j => gmul c (Av s sm j x) (Bv t tm j x)).
Definition Dv (s t : bytes) (tp : nat -> bytes) (i : nat) : N :=
  N.lxor (Cv s t (sr I tp) (tr I tp) (nth (M2 + i) (xs2 I c) 0%N)) (gsum n (fun p => t_P I (tp p) i)).
Definition values (key pt s t : bytes) (tp : nat -> bytes) : disclosed :=
  let ds := map (Dv s t tp) (seq 0 (M2 + 1)) in
  mkDisclosed (kd I key tp) (td I t tp) (map (fun p => fst (outs I nk key pt t tp p)) (seq 0 n)) ds
    ((map (fun j => Av s (sr I tp) j R) (seq 0 M1), map (fun j => Bv t (tr I tp) j R) (seq 0 M1)), Cv s t (sr I tp) (tr I tp) R)
    (map (known I c (fun k => lag c pre1 k R) (fun k => lag c pre2 k R) rs ds (fun p => snd (outs I nk key pt t tp p)) (v_ts I (td I t tp) tp) tp) (seq 0 n)).

Section One.
Variables (key pt ct s t : bytes).
Hypothesis KO : key_ok I nk key pt ct s t.
Variable tp : nat -> bytes.
Hypothesis HT : forall p, p < n -> tape_ok I (tp p).
Let ssh (p : nat) : bytes := snd (outs I nk key pt t tp p).
Let tsh : nat -> bytes := v_ts I (td I t tp) tp.

Lemma rep_pieces : str sb s /\ str sb t /\ (forall i, i < sb -> fmul (nth i s 0%N) (nth i t 0%N) = 1%N) /\
  (forall p, p < n -> str sb (ssh p)) /\ (forall p, p < n -> str sb (tsh p)) /\ bsum sb n ssh = s /\ bsum sb n tsh = t.
Proof.
  destruct (key_facts I c nk OK key pt ct s t KO) as (Hs & Ht & _ & Hst).
  split; [exact Hs|]. split; [exact Ht|]. split; [exact Hst|]. split; [|split; [|split]].
  - intros p Hpn. apply (outs_str I c nk OK _ _ _ _ _ KO); assumption.
  - intros p Hpn. apply v_ts_str; [apply (td_str I c nk OK _ _ _ _ _ KO); exact HT|apply HT; exact Hpn].
  - apply (outs_sum I c nk OK key pt ct s t KO tp HT).
  - exact (ts_sum I c nk OK key pt ct s t KO tp HT).
Qed.
Lemma repetition_is : exists P, repetition I c key pt (map tp (seq 0 n)) rs R = Ok (values key pt s t tp) /\
  P_is I c pre1 s t tp rs P /\ delta_is I c tp P (map (Dv s t tp) (seq 0 (M2 + 1))) /\
  ((map (fun j => Av s (sr I tp) j R) (seq 0 M1), map (fun j => Bv t (tr I tp) j R) (seq 0 M1)), Cv s t (sr I tp) (tr I tp) R) = opened I c pre1 s t tp rs P R.
Proof.
  destruct rep_pieces as (Hs & Ht & Hst & Hss & Hts & Ssum & Tsum).
  destruct (sq_ok I c nk OK pre1 G1) as (sq & Esq & Lq & Fq & Hq).
  destruct (prods_ok I c nk OK pre1 G1 s t Hs Ht) as (prods & Eprods & Lp & Hp).
  destruct (last1_ok I c nk OK pre1 G1) as (Elast & _).
  destruct (sign_phase3_ok I c nk OK pre1 G1 s t ssh tsh tp HT Hss Hts rs Lr Fr prods sq
    (kd I key tp) (td I t tp) (map (v_keys I (kd I key tp) tp) (seq 0 n)) (map (fun p => fst (outs I nk key pt t tp p)) (seq 0 n)) Lp Hp Lq Fq Hq)
    as (P & ds & E3 & HP & Hd).
  assert (Eds : ds = map (Dv s t tp) (seq 0 (M2 + 1))).
  { rewrite (list_map_nth' ds (M2 + 1) 0%N) by apply Hd. apply map_seq_ext. intros i Hi. rewrite (proj2 Hd) by lia. unfold Dv, Cv. f_equal.
    apply HP. apply (xs2_elt I c nk OK). lia. }
  exists P. assert (Eo : ((map (fun j => Av s (sr I tp) j R) (seq 0 M1), map (fun j => Bv t (tr I tp) j R) (seq 0 M1)), Cv s t (sr I tp) (tr I tp) R) = opened I c pre1 s t tp rs P R).
  { unfold opened, Av, Bv, Cv. f_equal. symmetry. apply HP. exact HR. }
  rewrite <- Eds. split; [|split; [exact HP|split; [exact Hd|exact Eo]]].
  unfold repetition. rewrite (save_ok I c nk OK key pt (ko_key _ _ _ _ _ _ _ KO) (ko_pt _ _ _ _ _ _ _ KO)), (ko_run _ _ _ _ _ _ _ KO). cbn [bind fst snd].
  rewrite (sign_phase1_ok I c nk OK key pt ct s t KO tp HT). cbn [bind].
  change (get_first_n_field_elements c (M2 + 1)) with (xs1 I c). change (get_first_n_field_elements c (2 * M2 + 1)) with (xs2 I c). cbv zeta.
  rewrite (lg_pre _ _ _ _ G1). cbn [bind]. rewrite (lg_pre _ _ _ _ G2). cbn [bind]. rewrite Elast. cbn [bind]. rewrite Esq. cbn [bind]. rewrite Eprods. cbn [bind].
  unfold ssh, tsh in E3. rewrite E3. cbn [bind].
  pose proof (sign_phase5_ok I c nk OK pre1 pre2 G1 G2 s t Hs Ht Hst _ _ tp HT Hss Hts Ssum Tsum rs Lr Fr P ds R HP Hd HR) as E5. unfold ssh, tsh in E5. rewrite E5. cbn [bind fst snd r1_key_delta r1_t_delta r1_bcast r3_delta].
  unfold values. rewrite <- Eds, Eo. reflexivity.
Qed.
End One.

(** *** the values that are opened or corrected determine the others *)
Section Two.
Variables (m : nat) (pt ct : bytes).
Hypothesis Hm : m < n.
Variables (key s t : bytes) (tp : nat -> bytes) (key' s' t' : bytes) (tp' : nat -> bytes).
Hypothesis KO : key_ok I nk key pt ct s t.
Hypothesis KO' : key_ok I nk key' pt ct s' t'.
Hypothesis HT : forall p, p < n -> tape_ok I (tp p).
Hypothesis HT' : forall p, p < n -> tape_ok I (tp' p).
Hypothesis Ag : forall p, p < n -> p <> m -> tp p = tp' p.
Lemma others_determine :
  let v := values key pt s t tp in let v' := values key' pt s' t' tp' in
  d_key_delta v = d_key_delta v' -> d_t_delta v = d_t_delta v' -> d_P_delta v = d_P_delta v' ->
  v_a (d_opened v) = v_a (d_opened v') -> v_b (d_opened v) = v_b (d_opened v') -> v = v'.
Proof.
  intros v v' Ek Et Ep Ea Eb.
  destruct (repetition_is key pt ct s t KO tp HT) as (P & _ & HP & Hd & Eo). destruct (repetition_is key' pt ct s' t' KO' tp' HT') as (P' & _ & HP' & Hd' & Eo').
  destruct (rep_pieces key pt ct s t KO tp HT) as (Hs & Ht & Hst & Hss & Hts & Ssum & Tsum).
  destruct (rep_pieces key' pt ct s' t' KO' tp' HT') as (Hs' & Ht' & Hst' & Hss' & Hts' & Ssum' & Tsum').
  unfold v, v', values in *. cbv zeta in *. cbn [d_key_delta d_t_delta d_P_delta d_opened] in Ek, Et, Ep, Ea, Eb. unfold v_a, v_b in Ea, Eb. cbn [fst snd] in Ea, Eb.
  assert (Out : forall p, p < n -> p <> m -> outs I nk key pt t tp p = outs I nk key' pt t' tp' p).
  { intros p Hp Hne. unfold outs, v_out, aes_out, v_keys, v_ts. rewrite Ek, Et, (Ag p Hp Hne). reflexivity. }
  assert (Ts : forall p, p < n -> p <> m -> v_ts I (td I t tp) tp p = v_ts I (td I t' tp') tp' p).
  { intros p Hp Hne. unfold v_ts. rewrite Et, (Ag p Hp Hne). reflexivity. }
  assert (Ec : Cv s t (sr I tp) (tr I tp) R = Cv s' t' (sr I tp') (tr I tp') R).
  { unfold Cv. apply gsum_ext. intros j Hj. f_equal.
    - rewrite <- (nth_map_seq (fun j => Av s (sr I tp) j R) M1 j 0%N Hj), Ea. apply (nth_map_seq (fun j => Av s' (sr I tp') j R) M1 j 0%N Hj).
    - rewrite <- (nth_map_seq (fun j => Bv t (tr I tp) j R) M1 j 0%N Hj), Eb. apply (nth_map_seq (fun j => Bv t' (tr I tp') j R) M1 j 0%N Hj). }
  f_equal; [exact Ek|exact Et| |exact Ep| |].
  - apply map_seq_ext. intros p Hp. destruct (Nat.eq_dec p m) as [->|Hne]; [|rewrite Out by (auto; lia); reflexivity].
    destruct (outs_sum I c nk OK key pt ct s t KO tp HT) as [X _]. destruct (outs_sum I c nk OK key' pt ct s' t' KO' tp' HT') as [X' _].
    assert (Lo : forall p, p < n -> length (fst (outs I nk key pt t tp p)) = pt_size I) by (intros q Hq; apply (outs_str I c nk OK _ _ _ _ _ KO); assumption).
    assert (Lo' : forall p, p < n -> length (fst (outs I nk key' pt t' tp' p)) = pt_size I) by (intros q Hq; apply (outs_str I c nk OK _ _ _ _ _ KO'); assumption).
    rewrite <- (bsum_recover (pt_size I) n m (fun p => fst (outs I nk key pt t tp p)) Hm Lo), <- (bsum_recover (pt_size I) n m (fun p => fst (outs I nk key' pt t' tp' p)) Hm Lo').
    rewrite X, X'. f_equal. apply bothers_ext. intros q Hq Hne. rewrite Out by assumption. reflexivity.
  - rewrite Ea, Eb, Ec. reflexivity.
  - apply map_seq_ext. intros p Hp. assert (Hp' : p < n) by lia.
    rewrite <- (v_views_eq I c nk OK pre1 pre2 G1 G2 s t Hs Ht Hst _ _ tp HT Hss Hts Ssum Tsum rs Lr Fr P _ R m p HP Hd HR Hm Hp').
    rewrite <- (v_views_eq I c nk OK pre1 pre2 G1 G2 s' t' Hs' Ht' Hst' _ _ tp' HT' Hss' Hts' Ssum' Tsum' rs Lr Fr P' _ R m p HP' Hd' HR Hm Hp').
    rewrite <- Eo, <- Eo', Ea, Eb, Ec, Ep. apply (v_views_ext I c).
    + intros q Hq Hne. cbn beta. rewrite Out by assumption. reflexivity.
    + intros q Hq Hne. apply Ts; assumption.
    + intros q Hq Hne. apply Ag; assumption.
    + exact Hp'.
Qed.
End Two.

(** *** every choice of them comes from exactly one tape of the hidden party *)
Lemma tape_ext a b : tape_ok I a -> tape_ok I b -> t_key I a = t_key I b -> t_out I a = t_out I b ->
  (forall j, j < M1 -> t_s I a j = t_s I b j /\ t_t I a j = t_t I b j) -> (forall i, i < M2 + 1 -> t_P I a i = t_P I b i) -> a = b.
Proof.
  intros Ha Hb Ek Eo Es Ep. destruct (layout_onto I c nk OK a Ha) as (k1 & o1 & ms1 & ps1 & V1 & ->). destruct (layout_onto I c nk OK b Hb) as (k2 & o2 & ms2 & ps2 & V2 & ->).
  rewrite (layout_key I _ _ _ _ V1), (layout_key I _ _ _ _ V2) in Ek. rewrite (layout_out I _ _ _ _ V1), (layout_out I _ _ _ _ V2) in Eo.
  f_equal; [exact Ek|exact Eo| |].
  - apply (nth_ext _ _ (0, 0)%N (0, 0)%N); [rewrite (tv_ms _ _ _ _ _ V1), (tv_ms _ _ _ _ _ V2); reflexivity|]. intros j Hj. rewrite (tv_ms _ _ _ _ _ V1) in Hj.
    destruct (Es j Hj) as [A B]. destruct (layout_st I c nk OK _ _ _ _ V1 j Hj) as [A1 B1]. destruct (layout_st I c nk OK _ _ _ _ V2 j Hj) as [A2 B2].
    rewrite A1, A2 in A. rewrite B1, B2 in B. destruct (nth j ms1 (0, 0)%N), (nth j ms2 (0, 0)%N). cbn [fst snd] in *. congruence.
  - apply (nth_ext _ _ 0%N 0%N); [rewrite (tv_ps _ _ _ _ _ V1), (tv_ps _ _ _ _ _ V2); reflexivity|]. intros i Hi. rewrite (tv_ps _ _ _ _ _ V1) in Hi.
    specialize (Ep i Hi). rewrite (layout_P I c nk OK _ _ _ _ V1 i), (layout_P I c nk OK _ _ _ _ V2 i) in Ep by lia. exact Ep.
Qed.
Hypothesis NR : ~ In R (get_first_n_field_elements c M2).
Lemma L_neq0 : lag c pre1 M2 R <> 0%N.
Proof.
  apply (lg_neq0 _ _ _ _ G1); [rewrite (len1 I c nk OK); lia|exact HR|]. intros j Hj Hne. rewrite (len1 I c nk OK) in Hj. intros ->. apply NR.
  rewrite (xs_prefix I c) by lia. rewrite <- (xs_prefix0 I c) by lia. apply nth_In. destruct (api_points lam c HI M2) as (_ & -> & _); [apply (points_ok I c nk OK); lia|lia].
Qed.
Lemma L_elt : E (lag c pre1 M2 R). Proof. apply (lg_elt _ _ _ _ G1). exact HR. Qed.
Lemma L_inv : exists iL, E iL /\ gmul c (lag c pre1 M2 R) iL = 1%N.
Proof. destruct (api_inverse lam c HI BinNums.Z0 _ L_elt) as (b & _ & _ & Eb & _ & X). exists b. split; [exact Eb|apply X, L_neq0]. Qed.
Lemma xor_swap a b d : N.lxor a b = d -> b = N.lxor a d.
Proof. intros <-. rewrite <- N.lxor_assoc, N.lxor_nilpotent, N.lxor_0_l. reflexivity. Qed.
Lemma mul_L_inj x y : E x -> E y -> gmul c x (lag c pre1 M2 R) = gmul c y (lag c pre1 M2 R) -> x = y.
Proof.
  intros Hx Hy X. destruct L_inv as (iL & Ei & EL). rewrite <- (g_mul_1_r lam c HI x Hx), <- (g_mul_1_r lam c HI y Hy), <- EL.
  rewrite <- !(g_assoc lam c HI) by (auto; apply L_elt). rewrite X. reflexivity.
Qed.

Variables (m : nat) (key pt ct s t : bytes).
Hypothesis Hm : m < n.
Hypothesis KO : key_ok I nk key pt ct s t.
Lemma tape_unique (tp tp' : nat -> bytes) : (forall p, p < n -> tape_ok I (tp p)) -> (forall p, p < n -> tape_ok I (tp' p)) ->
  (forall p, p < n -> p <> m -> tp p = tp' p) ->
  let v := values key pt s t tp in let v' := values key pt s t tp' in
  d_key_delta v = d_key_delta v' -> d_t_delta v = d_t_delta v' -> d_P_delta v = d_P_delta v' ->
  v_a (d_opened v) = v_a (d_opened v') -> v_b (d_opened v) = v_b (d_opened v') -> tp m = tp' m.
Proof.
  intros HT HT' Ag v v' Ek Et Ep Ea Eb. unfold v, v', values in *. cbv zeta in *. cbn [d_key_delta d_t_delta d_P_delta d_opened] in Ek, Et, Ep, Ea, Eb. unfold v_a, v_b in Ea, Eb. cbn [fst snd] in Ea, Eb.
  destruct (key_facts I c nk OK key pt ct s t KO) as (Hs & Ht & _ & _).
  assert (Sr : forall j, j < M1 -> sr I tp j = sr I tp' j).
  { intros j Hj. apply (f_equal (fun l => nth j l 0%N)) in Ea. rewrite !nth_map_seq in Ea by exact Hj. unfold Av, ax, gadd in Ea.
    apply mul_L_inj; [apply (sr_elt I c nk OK); assumption|apply (sr_elt I c nk OK); assumption|].
    apply xor_swap in Ea. rewrite <- N.lxor_assoc, N.lxor_nilpotent, N.lxor_0_l in Ea. exact Ea. }
  assert (Tr : forall j, j < M1 -> tr I tp j = tr I tp' j).
  { intros j Hj. apply (f_equal (fun l => nth j l 0%N)) in Eb. rewrite !nth_map_seq in Eb by exact Hj. unfold Bv, bx, gadd in Eb.
    apply mul_L_inj; [apply (tr_elt I c nk OK); assumption|apply (tr_elt I c nk OK); assumption|].
    apply xor_swap in Eb. rewrite <- N.lxor_assoc, N.lxor_nilpotent, N.lxor_0_l in Eb. exact Eb. }
  assert (Hk : forall q : nat -> bytes, (forall p, p < n -> tape_ok I (q p)) -> forall p, p < n -> length (t_key I (q p)) = ks) by (intros q Hq p Hp; apply t_key_str; auto).
  assert (Ho : forall q : nat -> bytes, (forall p, p < n -> tape_ok I (q p)) -> forall p, p < n -> length (t_out I (q p)) = sb) by (intros q Hq p Hp; apply t_out_str; auto).
  apply tape_ext; [auto|auto| | | |].
  - apply (f_equal (xorl key)) in Ek. unfold kd in Ek. rewrite !xorl_cancel_l in Ek by (rewrite bsum_len by (auto; apply Hk; assumption); apply KO).
    rewrite <- (bsum_recover ks n m (fun p => t_key I (tp p)) Hm (Hk tp HT)), <- (bsum_recover ks n m (fun p => t_key I (tp' p)) Hm (Hk tp' HT')). rewrite Ek. f_equal.
    apply bothers_ext. intros p Hp Hne. rewrite (Ag p Hp Hne). reflexivity.
  - apply (f_equal (xorl t)) in Et. unfold td in Et. rewrite !xorl_cancel_l in Et by (rewrite bsum_len by (auto; apply Ho; assumption); apply Ht).
    rewrite <- (bsum_recover sb n m (fun p => t_out I (tp p)) Hm (Ho tp HT)), <- (bsum_recover sb n m (fun p => t_out I (tp' p)) Hm (Ho tp' HT')). rewrite Et. f_equal.
    apply bothers_ext. intros p Hp Hne. rewrite (Ag p Hp Hne). reflexivity.
  - intros j Hj. specialize (Sr j Hj). specialize (Tr j Hj). unfold sr in Sr. unfold tr in Tr. split.
    + rewrite <- (gsum_recover n m (fun p => t_s I (tp p) j) Hm), <- (gsum_recover n m (fun p => t_s I (tp' p) j) Hm), Sr. f_equal.
      apply gothers_ext. intros p Hp Hne. rewrite (Ag p Hp Hne). reflexivity.
    + rewrite <- (gsum_recover n m (fun p => t_t I (tp p) j) Hm), <- (gsum_recover n m (fun p => t_t I (tp' p) j) Hm), Tr. f_equal.
      apply gothers_ext. intros p Hp Hne. rewrite (Ag p Hp Hne). reflexivity.
  - intros i Hi. apply (f_equal (fun l => nth i l 0%N)) in Ep. rewrite !nth_map_seq in Ep by exact Hi. unfold Dv in Ep.
    assert (X : Cv s t (sr I tp) (tr I tp) (nth (M2 + i) (xs2 I c) 0%N) = Cv s t (sr I tp') (tr I tp') (nth (M2 + i) (xs2 I c) 0%N)).
    { unfold Cv. apply gsum_ext. intros j Hj. unfold Av, Bv. rewrite (Sr j Hj), (Tr j Hj). reflexivity. }
    rewrite X in Ep. apply xor_swap in Ep. rewrite <- N.lxor_assoc, N.lxor_nilpotent, N.lxor_0_l in Ep.
    rewrite <- (gsum_recover n m (fun p => t_P I (tp p) i) Hm), <- (gsum_recover n m (fun p => t_P I (tp' p) i) Hm), Ep. f_equal.
    apply gothers_ext. intros p Hp Hne. rewrite (Ag p Hp Hne). reflexivity.
Qed.

Lemma tape_exists (tp : nat -> bytes) (kd0 td0 : bytes) (as0 bs0 ds0 : list N) : (forall p, p < n -> tape_ok I (tp p)) ->
  str ks kd0 -> str sb td0 -> length as0 = M1 -> Forall E as0 -> length bs0 = M1 -> Forall E bs0 -> length ds0 = M2 + 1 -> Forall E ds0 ->
  exists tape, tape_ok I tape /\ let v := values key pt s t (fun p => if p =? m then tape else tp p) in
    d_key_delta v = kd0 /\ d_t_delta v = td0 /\ d_P_delta v = ds0 /\ v_a (d_opened v) = as0 /\ v_b (d_opened v) = bs0.
Proof.
  intros HT Hk0 Ht0 La Fa Lb Fb Ld Fd. destruct (key_facts I c nk OK key pt ct s t KO) as (Hs & Ht & _ & _). pose proof (ko_key _ _ _ _ _ _ _ KO) as Hkey.
  destruct L_inv as (iL & Ei & EL). set (L := lag c pre1 M2 R) in *. assert (HL : E L) by apply L_elt.
  set (rS := fun j => gmul c (nth j rs 0%N) (Sx I c pre1 s j R)). set (tS := fun j => Sx I c pre1 t j R).
  assert (ErS : forall j, E (rS j)) by (intros j; apply (E_mul lam c HI)).
  assert (EtS : forall j, E (tS j)) by (intros j; apply (Sx_elt I c nk OK)).
  set (sm := fun j => gmul c (N.lxor (nth j as0 0%N) (rS j)) iL). set (tm := fun j => gmul c (N.lxor (nth j bs0 0%N) (tS j)) iL).
  assert (HA : forall j, j < M1 -> ax I c pre1 s (nth j rs 0%N) (sm j) j R = nth j as0 0%N).
  { intros j Hj. assert (E (nth j as0 0%N)) by (apply (E_nth lam c HI); exact Fa). unfold ax. fold L. fold (rS j). unfold sm.
    rewrite (g_assoc lam c HI) by (auto; apply (E_xor lam c HI); auto). rewrite (g_mul_comm c iL L), EL.
    rewrite (g_mul_1_r lam c HI) by (apply (E_xor lam c HI); auto). unfold gadd. rewrite (N.lxor_comm (nth j as0 0%N)), <- N.lxor_assoc, N.lxor_nilpotent. apply N.lxor_0_l. }
  assert (HB : forall j, j < M1 -> bx I c pre1 t (tm j) j R = nth j bs0 0%N).
  { intros j Hj. assert (E (nth j bs0 0%N)) by (apply (E_nth lam c HI); exact Fb). unfold bx. fold L. fold (tS j). unfold tm.
    rewrite (g_assoc lam c HI) by (auto; apply (E_xor lam c HI); auto). rewrite (g_mul_comm c iL L), EL.
    rewrite (g_mul_1_r lam c HI) by (apply (E_xor lam c HI); auto). unfold gadd. rewrite (N.lxor_comm (nth j bs0 0%N)), <- N.lxor_assoc, N.lxor_nilpotent. apply N.lxor_0_l. }
  set (Pv := fun i => N.lxor (Cv s t sm tm (nth (M2 + i) (xs2 I c) 0%N)) (nth i ds0 0%N)).
  set (k1 := xorl (xorl key kd0) (bothers ks n m (fun p => t_key I (tp p)))).
  set (o1 := xorl (xorl t td0) (bothers sb n m (fun p => t_out I (tp p)))).
  set (s1 := fun j => N.lxor (sm j) (gothers n m (fun p => t_s I (tp p) j))).
  set (t1 := fun j => N.lxor (tm j) (gothers n m (fun p => t_t I (tp p) j))).
  set (p1 := fun i => N.lxor (Pv i) (gothers n m (fun p => t_P I (tp p) i))).
  assert (V : tape_values I k1 o1 (map (fun j => (s1 j, t1 j)) (seq 0 M1)) (map p1 (seq 0 (M2 + 1)))).
  { constructor.
    - apply str_xorl; [apply str_xorl; assumption|]. apply bsum_str. intros p Hp. destruct (p =? m); [apply str_zeros|apply t_key_str; auto].
    - apply str_xorl; [apply str_xorl; assumption|]. apply bsum_str. intros p Hp. destruct (p =? m); [apply str_zeros|apply t_out_str; auto].
    - apply length_map_seq.
    - apply Forall_map, Forall_forall. intros j Hj. apply in_seq in Hj. cbn [fst snd]. split; apply (E_xor lam c HI); try apply (E_mul lam c HI); apply (E_gsum lam c HI); intros p Hp;
        (destruct (p =? m); [apply (E_0 lam c HI)|]); [apply (t_s_elt I c nk OK)|apply (t_t_elt I c nk OK)]; auto; lia.
    - apply length_map_seq.
    - apply Forall_map, Forall_forall. intros i Hi. apply in_seq in Hi. apply (E_xor lam c HI); [apply (E_xor lam c HI)|].
      + apply (E_gsum lam c HI). intros j Hj. apply (E_mul lam c HI).
      + apply (E_nth lam c HI). exact Fd.
      + apply (E_gsum lam c HI). intros p Hp. destruct (p =? m); [apply (E_0 lam c HI)|]. apply (t_P_elt I c nk OK); auto; lia. }
  set (tape := tape_layout lam k1 o1 (map (fun j => (s1 j, t1 j)) (seq 0 M1)) (map p1 (seq 0 (M2 + 1)))) in *.
  exists tape. split; [exact (layout_ok I _ _ _ _ V)|].
  set (tp' := fun p => if p =? m then tape else tp p). cbv zeta. unfold values. cbn [d_key_delta d_t_delta d_P_delta d_opened]. unfold v_a, v_b. cbn [fst snd].
  assert (Sr : forall j, j < M1 -> sr I tp' j = sm j).
  { intros j Hj. unfold sr. transitivity (gsum n (fun p => if p =? m then N.lxor (sm j) (gothers n m (fun p => t_s I (tp p) j)) else t_s I (tp p) j)); [|apply gsum_fill; exact Hm].
    apply gsum_ext. intros p Hp. unfold tp'. destruct (p =? m); [|reflexivity]. destruct (layout_st I c nk OK _ _ _ _ V j Hj) as [X _]. unfold tape. rewrite X, nth_map_seq by exact Hj. reflexivity. }
  assert (Tr : forall j, j < M1 -> tr I tp' j = tm j).
  { intros j Hj. unfold tr. transitivity (gsum n (fun p => if p =? m then N.lxor (tm j) (gothers n m (fun p => t_t I (tp p) j)) else t_t I (tp p) j)); [|apply gsum_fill; exact Hm].
    apply gsum_ext. intros p Hp. unfold tp'. destruct (p =? m); [|reflexivity]. destruct (layout_st I c nk OK _ _ _ _ V j Hj) as [_ X]. unfold tape. rewrite X, nth_map_seq by exact Hj. reflexivity. }
  split; [|split; [|split; [|split]]].
  - unfold kd. rewrite (bsum_ext ks n _ (fun p => if p =? m then xorl (xorl key kd0) (bothers ks n m (fun p => t_key I (tp p))) else t_key I (tp p))).
    + rewrite bsum_fill; [apply xorl_cancel_l|exact Hm|apply str_xorl; assumption|intros p Hp _; apply t_key_str; auto]. rewrite (proj1 Hkey), (proj1 Hk0). reflexivity.
    + intros p Hp. unfold tp'. destruct (p =? m); [|reflexivity]. apply (layout_key I _ _ _ _ V).
  - unfold td. rewrite (bsum_ext sb n _ (fun p => if p =? m then xorl (xorl t td0) (bothers sb n m (fun p => t_out I (tp p))) else t_out I (tp p))).
    + rewrite bsum_fill; [apply xorl_cancel_l|exact Hm|apply str_xorl; assumption|intros p Hp _; apply t_out_str; auto]. rewrite (proj1 Ht), (proj1 Ht0). reflexivity.
    + intros p Hp. unfold tp'. destruct (p =? m); [|reflexivity]. apply (layout_out I _ _ _ _ V).
  - rewrite (list_map_nth' ds0 (M2 + 1) 0%N Ld). apply map_seq_ext. intros i Hi. unfold Dv.
    assert (X : Cv s t (sr I tp') (tr I tp') (nth (M2 + i) (xs2 I c) 0%N) = Cv s t sm tm (nth (M2 + i) (xs2 I c) 0%N)).
    { unfold Cv. apply gsum_ext. intros j Hj. unfold Av, Bv. rewrite (Sr j Hj), (Tr j Hj). reflexivity. }
    rewrite X. rewrite (gsum_ext n _ (fun p => if p =? m then N.lxor (Pv i) (gothers n m (fun p => t_P I (tp p) i)) else t_P I (tp p) i)).
    + rewrite gsum_fill by exact Hm. unfold Pv. rewrite <- N.lxor_assoc, N.lxor_nilpotent. apply N.lxor_0_l.
    + intros p Hp. unfold tp'. destruct (p =? m); [|reflexivity]. unfold tape. rewrite (layout_P I c nk OK _ _ _ _ V i) by lia. rewrite nth_map_seq by lia. reflexivity.
  - rewrite (list_map_nth' as0 M1 0%N La). apply map_seq_ext. intros j Hj. unfold Av. rewrite Sr by lia. apply HA. lia.
  - rewrite (list_map_nth' bs0 M1 0%N Lb). apply map_seq_ext. intros j Hj. unfold Bv. rewrite Tr by lia. apply HB. lia.
Qed.
End Mask.

(** *** for the parameter sets, on lists of tapes *)
Lemma nth_skip {A} (l : list A) k i d : nth i (skipn k l) d = nth (k + i) l d.
Proof. revert l. induction k; intros l; [reflexivity|]. destruct l; [destruct i; reflexivity|]. apply IHk. Qed.
Lemma with_tape_map tapes m tape n : length tapes = n -> m < n -> with_tape tapes m tape = map (fun p => if p =? m then tape else nth p tapes []) (seq 0 n).
Proof.
  intros L Hm. unfold with_tape. apply (nth_ext _ _ [] []).
  - rewrite length_map_seq, app_length, firstn_length. cbn [length]. rewrite skipn_length. lia.
  - intros p Hp. rewrite app_length, firstn_length in Hp. cbn [length] in Hp. rewrite skipn_length in Hp. rewrite nth_map_seq by lia.
    destruct (Nat.eqb_spec p m) as [->|Hne].
    + rewrite app_nth2 by (rewrite firstn_length; lia). rewrite firstn_length. replace (m - Nat.min m (length tapes)) with 0 by lia. reflexivity.
    + destruct (Nat.lt_ge_cases p m).
      * rewrite app_nth1 by (rewrite firstn_length; lia). clear - H. revert m tapes H. induction p; intros [|m] [|x l] H; try lia; try reflexivity. cbn [firstn nth]. apply IHp. lia.
      * rewrite app_nth2 by (rewrite firstn_length; lia). rewrite firstn_length. replace (p - Nat.min m (length tapes)) with (S (p - S m)) by lia. cbn [nth].
        rewrite nth_skip. f_equal. lia.
Qed.

Section Api.
Variables (I : instance) (c : fctx).
Hypothesis HB : regular I.
Hypothesis Hc : init_extension_field (lambda I) = Ok c.
Variables (pt ct : bytes).
Hypothesis Hpt : str (pt_size I) pt.
Variables (tapes : list bytes) (rs : list N) (R : N).
Hypothesis Lt : length tapes = num_parties I.
Hypothesis Ft : Forall (str (tape_size I)) tapes.
Hypothesis Lr : length rs = m1 I.
Hypothesis Fr : Forall (elt (lambda I)) rs.
Hypothesis HR : elt (lambda I) R.
Let OK := inst_with I c HB Hc.
Let tp (p : nat) : bytes := nth p tapes [].
Let HT := tp_ok I tapes Lt Ft.

Lemma with_ok m tape : str (tape_size I) tape -> forall p, p < num_parties I -> tape_ok I (if p =? m then tape else tp p).
Proof. intros Ht p Hp. destruct (p =? m); [exact Ht|apply HT; exact Hp]. Qed.

Lemma api_mask_unique key m kd td pd a b : witness I pt ct key -> m < num_parties I -> ~ In R (get_first_n_field_elements c (m2 I)) ->
  str (key_size (i_aes I)) kd -> str (num_sboxes (i_aes I)) td ->
  length pd = m2 I + 1 -> Forall (elt (lambda I)) pd -> length a = m1 I -> Forall (elt (lambda I)) a -> length b = m1 I -> Forall (elt (lambda I)) b ->
  exists tape, str (tape_size I) tape /\
    (exists d, repetition I c key pt (with_tape tapes m tape) rs R = Ok d /\ shows d kd td pd a b) /\
    forall tape' d', str (tape_size I) tape' -> repetition I c key pt (with_tape tapes m tape') rs R = Ok d' -> shows d' kd td pd a b -> tape' = tape.
Proof.
  intros (Hk & s & t & EA) Hm NR Hkd Htd Lp Fp La Fa Lb Fb. pose proof (key_ok_of I c _ OK key pt ct s t Hk Hpt EA) as KO.
  destruct (lagr1 I c _ OK) as [pre1 G1]. destruct (lagr2 I c _ OK) as [pre2 G2].
  destruct (tape_exists I c _ OK pre1 pre2 G1 rs Lr R HR NR m key pt ct s t Hm KO tp kd td a b pd HT Hkd Htd La Fa Lb Fb Lp Fp) as (tape & T & S).
  exists tape. split; [exact T|]. split.
  - destruct (repetition_is I c _ OK pre1 pre2 G1 G2 rs Lr Fr R HR key pt ct s t KO _ (with_ok m tape T)) as (P & X & _).
    rewrite (with_tape_map tapes m tape _ Lt Hm). eexists. split; [exact X|]. exact S.
  - intros tape' d' T' X' S'. rewrite (with_tape_map tapes m tape' _ Lt Hm) in X'.
    destruct (repetition_is I c _ OK pre1 pre2 G1 G2 rs Lr Fr R HR key pt ct s t KO _ (with_ok m tape' T')) as (P' & Y' & _). fold (tp) in X'. unfold tp in Y' at 1. rewrite X' in Y'. injection Y' as ->.
    pose proof (tape_unique I c _ OK pre1 pre2 G1 rs Lr R HR NR m key pt ct s t Hm KO _ _ (with_ok m tape' T') (with_ok m tape T)) as U.
    cbn beta in U. rewrite Nat.eqb_refl in U. unfold shows in S'. destruct S as (S1 & S2 & S3 & S4 & S5). destruct S' as (Q1 & Q2 & Q3 & Q4 & Q5).
    apply U; [|congruence..]. intros p Hp Hne. apply Nat.eqb_neq in Hne. rewrite Hne. reflexivity.
Qed.
Lemma api_mask_determined key key' m tape tape' d d' : witness I pt ct key -> witness I pt ct key' -> m < num_parties I ->
  str (tape_size I) tape -> str (tape_size I) tape' ->
  repetition I c key pt (with_tape tapes m tape) rs R = Ok d -> repetition I c key' pt (with_tape tapes m tape') rs R = Ok d' ->
  shows d (d_key_delta d') (d_t_delta d') (d_P_delta d') (v_a (d_opened d')) (v_b (d_opened d')) -> d = d'.
Proof.
  intros (Hk & s & t & EA) (Hk' & s' & t' & EA') Hm T T' X X' (S1 & S2 & S3 & S4 & S5).
  pose proof (key_ok_of I c _ OK key pt ct s t Hk Hpt EA) as KO. pose proof (key_ok_of I c _ OK key' pt ct s' t' Hk' Hpt EA') as KO'.
  destruct (lagr1 I c _ OK) as [pre1 G1]. destruct (lagr2 I c _ OK) as [pre2 G2].
  destruct (repetition_is I c _ OK pre1 pre2 G1 G2 rs Lr Fr R HR key pt ct s t KO _ (with_ok m tape T)) as (P & Y & _).
  destruct (repetition_is I c _ OK pre1 pre2 G1 G2 rs Lr Fr R HR key' pt ct s' t' KO' _ (with_ok m tape' T')) as (P' & Y' & _).
  rewrite (with_tape_map tapes m tape _ Lt Hm) in X. rewrite (with_tape_map tapes m tape' _ Lt Hm) in X'. unfold tp in Y at 1. unfold tp in Y' at 1.
  rewrite X in Y. injection Y as Y. rewrite X' in Y'. injection Y' as Y'. rewrite Y, Y' in *.
  apply (others_determine I c _ OK pre1 pre2 G1 G2 rs Lr Fr R HR m pt ct Hm key s t _ key' s' t' _ KO KO' (with_ok m tape T) (with_ok m tape' T')); auto.
  intros p Hp Hne. apply Nat.eqb_neq in Hne. rewrite Hne. reflexivity.
Qed.
Lemma api_mask_shape key : witness I pt ct key -> exists d, repetition I c key pt tapes rs R = Ok d /\
  str (key_size (i_aes I)) (d_key_delta d) /\ str (num_sboxes (i_aes I)) (d_t_delta d) /\ length (d_P_delta d) = m2 I + 1 /\ Forall (elt (lambda I)) (d_P_delta d) /\
  length (v_a (d_opened d)) = m1 I /\ Forall (elt (lambda I)) (v_a (d_opened d)) /\ length (v_b (d_opened d)) = m1 I /\ Forall (elt (lambda I)) (v_b (d_opened d)).
Proof.
  intros (Hk & s & t & EA). pose proof (key_ok_of I c _ OK key pt ct s t Hk Hpt EA) as KO.
  destruct (lagr1 I c _ OK) as [pre1 G1]. destruct (lagr2 I c _ OK) as [pre2 G2].
  destruct (repetition_is I c _ OK pre1 pre2 G1 G2 rs Lr Fr R HR key pt ct s t KO tp HT) as (P & X & HP & Hd & Eo).
  destruct (rep_pieces I c _ OK key pt ct s t KO tp HT) as (Hs & Ht & Hst & Hss & Hts & Ssum & Tsum).
  destruct (opened_elt I c _ OK pre1 s t tp rs P R HP HR) as (O1 & O2 & _).
  eexists. split; [rewrite (tapes_map I tapes Lt); exact X|]. unfold values. cbv zeta. cbn [d_key_delta d_t_delta d_P_delta d_opened]. rewrite Eo.
  split; [apply (kd_str I _ _ _ _ _ _ KO); exact HT|]. split; [apply (td_str I c _ OK _ _ _ _ _ KO); exact HT|]. split; [apply length_map_seq|].
  split; [exact (delta_elt I c _ OK pre1 s t tp HT rs Lr P _ HP Hd)|]. unfold opened at 1 3. unfold v_a at 1. unfold v_b at 1. cbn [fst snd]. rewrite !length_map_seq. auto.
Qed.
Lemma api_every_witness key key' m : witness I pt ct key -> witness I pt ct key' -> m < num_parties I -> ~ In R (get_first_n_field_elements c (m2 I)) ->
  exists d tape', repetition I c key pt tapes rs R = Ok d /\ str (tape_size I) tape' /\ repetition I c key' pt (with_tape tapes m tape') rs R = Ok d.
Proof.
  intros V V' Hm NR. destruct (api_mask_shape key V) as (d & X & A1 & A2 & A3 & A4 & A5 & A6 & A7 & A8). exists d.
  destruct (api_mask_unique key' m _ _ _ _ _ V' Hm NR A1 A2 A3 A4 A5 A6 A7 A8) as (tape & T & (d' & X' & S) & _). exists tape. split; [exact X|]. split; [exact T|].
  rewrite X'. f_equal.
  assert (Ew : with_tape tapes m (tp m) = tapes).
  { rewrite (with_tape_map tapes m _ _ Lt Hm). etransitivity; [|symmetry; apply (list_map_nth' tapes _ [] Lt)]. apply map_seq_ext. intros p Hp. destruct (Nat.eqb_spec p m) as [->|]; reflexivity. }
  rewrite <- Ew in X. symmetry. apply (api_mask_determined key key' m (tp m) tape d d'); auto; [apply HT; exact Hm|].
  destruct S as (S1 & S2 & S3 & S4 & S5). unfold shows. auto.
Qed.
(** at one of the excluded points the masks have no effect *)
Lemma api_point_reveals key s t k : str (key_size (i_aes I)) key -> aes_with_sbox_output (key_size (i_aes I)) key pt = Ok ((s, t), Some ct) ->
  k < m2 I -> R = nth k (get_first_n_field_elements c (m2 I)) 0%N ->
  exists d, repetition I c key pt tapes rs R = Ok d /\ forall j, j < m1 I ->
    nth j (v_a (d_opened d)) 0%N = gmul c (nth j rs 0%N) (lift c (nth (j + m1 I * k) s 0%N)) /\
    nth j (v_b (d_opened d)) 0%N = lift c (nth (j + m1 I * k) t 0%N).
Proof.
  intros Hk EA Hkm ER. pose proof (key_ok_of I c _ OK key pt ct s t Hk Hpt EA) as KO.
  destruct (lagr1 I c _ OK) as [pre1 G1]. destruct (lagr2 I c _ OK) as [pre2 G2].
  destruct (repetition_is I c _ OK pre1 pre2 G1 G2 rs Lr Fr R HR key pt ct s t KO tp HT) as (P & X & _).
  destruct (rep_pieces I c _ OK key pt ct s t KO tp HT) as (Hs & Ht & _).
  eexists. split; [rewrite (tapes_map I tapes Lt); exact X|]. intros j Hj. unfold values. cbv zeta. cbn [d_opened]. unfold v_a, v_b. cbn [fst snd].
  rewrite !nth_map_seq by exact Hj. unfold Av, Bv, ax, bx. rewrite (xs_prefix0 I c) in ER by exact Hkm. rewrite ER.
  rewrite !(Sx_at I c _ OK pre1 G1) by auto. rewrite (L1_at I c _ OK pre1 G1) by exact Hkm. rewrite !(g_mul_0_r _ c Hc). unfold gadd. rewrite !N.lxor_0_r. split; reflexivity.
Qed.
End Api.

(** *** a signature consists of such repetitions *)
Lemma api_signature_repetitions H I key pt ct s t fuel garb st st' msg sig : regular I ->
  str (key_size (i_aes I)) key -> str (pt_size I) pt -> aes_with_sbox_output (key_size (i_aes I)) key pt = Ok ((s, t), Some ct) ->
  sign H fuel garb st I (key, pt ++ ct) msg = (st', Ok sig) -> forall e, e < num_rounds I ->
  let root := stream H (digest_size I =? 32) (le16 (i_params I) ++ key ++ (pt ++ ct) ++ msg) (32 + e * seed_size I) (seed_size I) in
  let tape p := stream H (2 * seed_size I =? 32) (leaf_seed H (s_salt sig) e root (num_parties I) p ++ s_salt sig ++ le16 e ++ le16 p) 0 (tape_size I) in
  exists c pf rs R d, init_extension_field (lambda I) = Ok c /\ nth_error (s_proofs sig) e = Some pf /\
    length rs = m1 I /\ Forall (elt (lambda I)) rs /\ elt (lambda I) R /\ ~ In R (get_first_n_field_elements c (m2 I)) /\
    repetition I c key pt (map tape (seq 0 (num_parties I))) rs R = Ok d /\
    p_sk_delta pf = d_key_delta d /\ p_t_delta pf = d_t_delta d /\ p_P_delta pf = d_P_delta d /\
    p_S_at_R pf = v_a (d_opened d) /\ p_T_at_R pf = v_b (d_opened d) /\ p_P_at_R pf = v_c (d_opened d).
Proof.
  intros HB Hk Hp EA ES e He root tape. destruct (regular_inst_ok I HB) as [c OK]. pose proof (key_ok_of I c _ OK key pt ct s t Hk Hp EA) as KO.
  unfold sign in ES. rewrite (with_field_ok _ _ _ _ (io_field _ _ _ OK)) in ES. injection ES as _ ES.
  destruct (lagr1 I c _ OK) as [pre1 G1]. destruct (lagr2 I c _ OK) as [pre2 G2].
  destruct (sign_run H I c _ OK pre1 pre2 G1 G2 key pt ct s t KO msg fuel garb) as [[X _]|(D & sig' & X & RO)]; rewrite X in ES; [discriminate ES|].
  injection ES as ->. pose proof (ro_sig _ _ _ _ _ _ _ _ _ _ _ _ _ _ _ _ RO) as Sg. destruct (ro_fin _ _ _ _ _ _ _ _ _ _ _ _ _ _ _ _ RO e He) as [F1 F2 F3 F4 F5 F6 F7 F8 F9 F10].
  assert (Es : s_salt sig = sg_salt H I key pt ct msg) by (rewrite Sg; reflexivity).
  assert (Er : root = sg_seed H I key pt ct msg e).
  { unfold sg_seed, generate_salt_and_seeds. unfold hash_squeeze, hash_final, hash_update_u16, hash_update, hash_init. cbn [h_v h_in h_off fst snd].
    rewrite squeeze_seeds_nth by exact He. unfold root. cbn [app Nat.add]. f_equal. rewrite <- !app_assoc. reflexivity. }
  assert (Et : forall p, tape p = sg_tape H I key pt ct msg e p).
  { intros p. unfold tape. rewrite Es, Er. unfold sg_tape, l_tape, generate_tape. unfold hash_squeeze, hash_final, hash_update_u16, hash_update, hash_init. cbn [h_v h_in h_off fst snd app].
    rewrite <- !app_assoc. f_equal. f_equal. unfold leaf_seed. rewrite node_seed_length. rewrite (proj1 (proj2 (seeds_ok H I key pt ct msg) e He)). lia. }
  assert (HT : forall p, p < num_parties I -> tape_ok I (sg_tape H I key pt ct msg e p)) by (intros; apply sg_tape_ok).
  destruct (repetition_is I c _ OK pre1 pre2 G1 G2 (fi_rs (D e)) F1 F2 (fi_R (D e)) F3 key pt ct s t KO _ HT) as (P & Y & HP & Hd & Eo).
  exists c, (sg_proof H I c pre1 key pt ct s t msg e (D e)), (fi_rs (D e)), (fi_R (D e)). eexists.
  split; [exact (io_field _ _ _ OK)|]. split; [rewrite Sg; cbn [s_proofs]; rewrite nth_error_map, (nth_error_nth' _ 0) by (rewrite seq_length; exact He); rewrite seq_nth by exact He; reflexivity|].
  split; [exact F1|]. split; [exact F2|]. split; [exact F3|]. split; [exact F4|].
  split; [rewrite (map_seq_ext tape (sg_tape H I key pt ct msg e)) by (intros p _; apply Et); exact Y|].
  unfold values. cbv zeta. cbn [d_key_delta d_t_delta d_P_delta d_opened sg_proof p_sk_delta p_t_delta p_P_delta p_S_at_R p_T_at_R p_P_at_R].
  split; [reflexivity|]. split; [reflexivity|]. split.
  - rewrite (list_map_nth' (fi_ds (D e)) (m2 I + 1) 0%N) by apply F6. apply map_seq_ext. intros i Hi. rewrite (proj2 F6) by lia. unfold Dv, Cv, Av, Bv. f_equal. apply F5. apply (xs2_elt I c _ OK). lia.
  - split; [reflexivity|]. split; [reflexivity|]. unfold sg_open, opened, v_c. cbn [snd]. unfold Cv, Av, Bv. apply F5. exact F3.
Qed.
