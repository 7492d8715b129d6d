(** An implementation of PlSnP gives the four-way hash interface of BitHashModel for every rate of at most B bytes, where B bounds what
    can be extracted from offset 0 in one call.  The proofs follow SnpSim4, which is about two rates only. *)
From Coq Require Import Arith NArith List Bool Lia.
From Verif Require Import Prelude SpongeModel SpongeApi BitHashSpec BitHashModel SnpSponge SnpSim SnpSim4 SnpHashSim SnpHash4.
Import ListNotations.

Record simulates4_any (Q : plsnp) (R : bytes -> list bytes -> Prop) (f : bytes -> bytes) (B : nat) : Prop := mkAny4 {
  any4_sim : simulates4 Q 800 R f;
  any4_extract : forall m sts i off len o, R m sts -> i < 4 -> (off = 0 -> (len <= N.of_nat B)%N) -> extract_bytes (nth i sts []) off len = Ok o -> pl_extract Q m i off len = Ok o }.
(** four buffers of bytes *)
Definition bytes_call4 (c : call4) : Prop := match c with Update4 ds _ => four_bytes ds | _ => True end.

Section Sim4.
Variables (Q : plsnp) (R : bytes -> list bytes -> Prop) (f : bytes -> bytes) (B : nat).
Hypothesis ANY : simulates4_any Q R f B.
Hypothesis HB : B <= 200.
Let SIM := any4_sim Q R f B ANY.

Lemma any4_extract_all m sts off len os : R m sts -> (off = 0 -> (len <= N.of_nat B)%N) -> extract_bytes4 sts off len = Ok os -> g_extract4 Q m off len = Ok os.
Proof.
  intros HR Hl E. pose proof (sim4_four _ _ _ _ SIM _ _ HR) as Ls.
  destruct (four_cases sts Ls) as (s0 & s1 & s2 & s3 & ->). unfold extract_bytes4 in E. cbn [mapM] in E.
  apply bind_ok in E. destruct E as (t0 & E0 & E). apply bind_ok in E. destruct E as (l & E' & E). inversion E; subst os; clear E.
  apply bind_ok in E'. destruct E' as (t1 & E1 & E'). apply bind_ok in E'. destruct E' as (l' & E'' & E'). inversion E'; subst l; clear E'.
  apply bind_ok in E''. destruct E'' as (t2 & E2 & E''). apply bind_ok in E''. destruct E'' as (l & E''' & E''). inversion E''; subst l'; clear E''.
  apply bind_ok in E'''. destruct E''' as (t3 & E3 & E'''). cbn [bind] in E'''. inversion E'''; subst l; clear E'''.
  unfold g_extract4. cbn [seq mapM].
  rewrite (any4_extract _ _ _ _ ANY m _ 0 off len t0 HR ltac:(lia) Hl E0), (any4_extract _ _ _ _ ANY m _ 1 off len t1 HR ltac:(lia) Hl E1),
    (any4_extract _ _ _ _ ANY m _ 2 off len t2 HR ltac:(lia) Hl E2), (any4_extract _ _ _ _ ANY m _ 3 off len t3 HR ltac:(lia) Hl E3). reflexivity.
Qed.
Lemma any4_squeeze_blocks rb (Hrb : 1 <= rb <= B) : forall fuel m sts need o sts' need', R m sts ->
  squeeze_blocks4 f rb fuel sts need = Ok (o, sts', need') -> exists m', g_squeeze_blocks4 Q rb fuel m need = Ok (o, m', need') /\ R m' sts'.
Proof.
  induction fuel as [|fuel IH]; intros m sts need o sts' need' HR E; [discriminate|]. cbn [squeeze_blocks4 g_squeeze_blocks4] in *.
  destruct (rb <=? need); [|rewrite (sim4_four _ _ _ _ SIM _ _ HR) in E; inversion E; subst; exists m; split; [reflexivity|exact HR]].
  apply bind_ok in E. destruct E as (o1 & E1 & E). apply bind_ok in E. destruct E as ([[o2 st2] n2] & E2 & E). inversion E; subst.
  destruct (sim4_permute _ _ _ _ SIM _ _ HR) as (m1 & Ep & HR1). rewrite Ep. cbn [bind].
  rewrite (any4_extract_all m1 (map f sts) 0 (N.of_nat rb) o1 HR1 ltac:(intros; lia) E1). cbn [bind].
  destruct (IH m1 (map f sts) _ _ _ _ HR1 E2) as (m2 & Eg & HR2). rewrite Eg. cbn [bind]. exists m2. split; [reflexivity|exact HR2].
Qed.
Lemma any4_squeeze_loop rb (Hrb : 1 <= rb <= B) : forall fuel m sts idx need o sts' idx', R m sts ->
  squeeze_loop4 f rb fuel sts idx need = Ok (o, sts', idx') -> exists m', g_squeeze_loop4 Q rb fuel m idx need = Ok (o, m', idx') /\ R m' sts'.
Proof.
  induction fuel as [|fuel IH]; intros m st idx need o st' idx' HR E; [discriminate|]. cbn [squeeze_loop4 g_squeeze_loop4] in *.
  destruct (need =? 0); [rewrite (sim4_four _ _ _ _ SIM _ _ HR) in E; inversion E; subst; exists m; split; [reflexivity|exact HR]|].
  destruct ((idx =? rb) && (rb <=? need)).
  - apply bind_ok in E. destruct E as ([[o1 st1] n1] & E1 & E). apply bind_ok in E. destruct E as ([[o2 st2] i2] & E2 & E). inversion E; subst.
    destruct (any4_squeeze_blocks rb Hrb _ _ _ _ _ _ _ HR E1) as (m1 & Eg & HR1). rewrite Eg. cbn [bind].
    destruct (IH m1 st1 _ _ _ _ _ HR1 E2) as (m2 & Eg2 & HR2). rewrite Eg2. cbn [bind]. exists m2. split; [reflexivity|exact HR2].
  - assert (X : exists m1 st1 idx1, R m1 st1 /\ (if idx =? rb then (map f st, 0) else (st, idx)) = (st1, idx1) /\
       (if idx =? rb then do m' <- pl_permute Q m; Ok (m', 0) else Ok (m, idx)) = Ok (m1, idx1)).
    { destruct (idx =? rb); [|exists m, st, idx; auto]. destruct (sim4_permute _ _ _ _ SIM _ _ HR) as (m1 & Ep & HR1). rewrite Ep. exists m1, (map f st), 0. auto. }
    destruct X as (m1 & st1 & idx1 & HR1 & Es & Em). rewrite Em. cbn [bind]. rewrite Es in E. cbv zeta in *.
    apply bind_ok in E. destruct E as (o1 & E1 & E). apply bind_ok in E. destruct E as ([[o2 st2] i2] & E2 & E). inversion E; subst.
    rewrite (any4_extract_all _ _ _ _ _ HR1 (piece_any B HB rb need idx1 ltac:(lia)) E1). cbn [bind].
    destruct (IH m1 st1 _ _ _ _ _ HR1 E2) as (m2 & Eg & HR2). rewrite Eg. cbn [bind]. exists m2. split; [reflexivity|exact HR2].
Qed.

Definition Rsp4 (g : sponge) (s : sponge4) : Prop :=
  R (sp_state g) (sq_states s) /\ sp_rate g = sq_rate s /\ sp_idx g = sq_idx s /\ sp_squeezing g = sq_squeezing s /\ 1 <= sq_rate s / 8 <= B.
Lemma any4_absorb fuel g s d s' : Rsp4 g s -> four_bytes d -> sponge4_absorb f fuel s d = Ok s' -> exists g', g_sponge4_absorb Q fuel g d = Ok g' /\ Rsp4 g' s'.
Proof.
  intros (H1 & H2 & H3 & H4 & H5) Hd E. unfold sponge4_absorb, g_sponge4_absorb in *. rewrite H2, H3, H4. destruct (sq_squeezing s) eqn:Z.
  - inversion E; subst. exists g. split; [reflexivity|]. rewrite <- Z in H4. exact (conj H1 (conj H2 (conj H3 (conj H4 H5)))).
  - apply bind_ok in E. destruct E as ([st i] & E1 & E). inversion E; subst. destruct (sim4_absorb_loop Q 800 R f SIM _ _ _ _ _ _ _ _ H1 Hd E1) as (m' & Eg & HR).
    rewrite Eg. cbn [bind]. eexists. split; [reflexivity|]. exact (conj HR (conj eq_refl (conj eq_refl (conj eq_refl H5)))).
Qed.
Lemma any4_last g s delim s' : Rsp4 g s -> is_byte delim -> sponge4_last f s delim = Ok s' ->
  exists g', g_sponge4_last Q g delim = Ok g' /\ match g', s' with Some g', Some s' => Rsp4 g' s' | None, None => True | _, _ => False end.
Proof.
  intros (H1 & H2 & H3 & H4 & H5) Hb E. unfold sponge4_last, g_sponge4_last in *. rewrite H2, H3, H4. destruct (N.eqb delim 0); [inversion E; subst; exists None; auto|].
  destruct (sq_squeezing s); [inversion E; subst; exists None; auto|]. apply bind_ok in E. destruct E as (st1 & E1 & E). cbv zeta in E. apply bind_ok in E. destruct E as (st2 & E2 & E). inversion E; subst.
  destruct (g_add_byte4_ok Q 800 R f SIM _ _ _ _ _ H1 Hb E1) as (m1 & Ea & HR1). rewrite Ea. cbn [bind].
  assert (X : exists m2, (if N.leb 128 delim && (sq_idx s =? sq_rate s / 8 - 1) then pl_permute Q m1 else Ok m1) = Ok m2 /\
     R m2 (if N.leb 128 delim && (sq_idx s =? sq_rate s / 8 - 1) then map f st1 else st1)).
  { destruct (N.leb 128 delim && (sq_idx s =? sq_rate s / 8 - 1)); [apply (sim4_permute _ _ _ _ SIM); exact HR1|exists m1; auto]. }
  destruct X as (m2 & Ex & HR2). rewrite Ex. cbn [bind].
  destruct (g_add_byte4_ok Q 800 R f SIM _ _ _ _ _ HR2 byte_128 E2) as (m3 & Ea2 & HR3). rewrite Ea2. cbn [bind].
  destruct (sim4_permute _ _ _ _ SIM _ _ HR3) as (m4 & Ep & HR4). rewrite Ep. cbn [bind]. eexists. split; [reflexivity|]. exact (conj HR4 (conj eq_refl (conj eq_refl (conj eq_refl H5)))).
Qed.
Lemma any4_squeeze fuel g s need o s' : Rsp4 g s -> sponge4_squeeze f fuel s need = Ok (o, s') -> exists g', g_sponge4_squeeze Q fuel g need = Ok (o, g') /\ Rsp4 g' s'.
Proof.
  intros HR E. unfold sponge4_squeeze, g_sponge4_squeeze in *. apply bind_ok in E. destruct E as (s1 & E1 & E).
  assert (X : exists g1, (if sp_squeezing g then Ok g else do g' <- g_sponge4_last Q g 1; Ok (match g' with Some g' => g' | None => g end)) = Ok g1 /\ Rsp4 g1 s1).
  { assert (HR' := HR). destruct HR' as (_ & _ & _ & H4 & _). rewrite H4. destruct (sq_squeezing s) eqn:Z; [inversion E1; subst; exists g; split; [reflexivity|exact HR]|].
    apply bind_ok in E1. destruct E1 as (s2 & E2 & E1). destruct (any4_last g s 1%N s2 HR ltac:(reflexivity) E2) as (g2 & Eg & HM). rewrite Eg. cbn [bind].
    eexists. split; [reflexivity|]. inversion E1; subst. destruct g2, s2; try contradiction; [exact HM|exact HR]. }
  destruct X as (g1 & Eg & (H1 & H2 & H3 & H4 & H5)). rewrite Eg. cbn [bind]. rewrite H2, H3, H4. apply bind_ok in E. destruct E as ([[o1 st1] i1] & E2 & E). inversion E; subst.
  destruct (any4_squeeze_loop _ H5 _ _ _ _ _ _ _ _ H1 E2) as (m' & El & HR'). rewrite El. cbn [bind]. eexists. split; [reflexivity|]. exact (conj HR' (conj eq_refl (conj eq_refl (conj eq_refl H5)))).
Qed.

Definition Rkh4 (g : khash) (k : khash4) : Prop := Rsp4 (kh_sponge g) (kq_sponge k) /\ kh_fixed g = kq_fixed k /\ kh_suffix g = kq_suffix k /\ is_byte (kq_suffix k).
Lemma any4_update fuel g k ds n r k' : Rkh4 g k -> four_bytes ds -> kb_update4 f fuel k ds n = Ok (r, k') -> exists g', hash4_update Q fuel g ds n = Ok (r, g') /\ Rkh4 g' k'.
Proof.
  intros HR Hd E. assert (HR' := HR). destruct HR' as (H1 & H2 & H3 & H4). unfold kb_update4, hash4_update in *. assert (H1' := H1). destruct H1' as (_ & _ & _ & Z & _). rewrite Z, H2, H3.
  destruct (negb (N.eqb (n mod 8) 0)); [inversion E; subst; exists g; split; [reflexivity|exact HR]|].
  destruct (sq_squeezing (kq_sponge k)); [inversion E; subst; exists g; split; [reflexivity|exact HR]|].
  destruct (existsb (fun d => N.ltb (N.of_nat (length d)) (n / 8)) ds); [discriminate|]. apply bind_ok in E. destruct E as (s & E1 & E). inversion E; subst.
  destruct (any4_absorb fuel _ _ _ _ H1 (four_map _ ds (firstn_bytes _) Hd) E1) as (g1 & Eg & HR1).
  eexists. split; [refine (eq_trans (f_equal (fun x => bind x _) Eg) _); reflexivity|]. exact (conj HR1 (conj eq_refl (conj eq_refl H4))).
Qed.
Lemma any4_call fuel g k c r o k' : Rkh4 g k -> bytes_call4 c -> kb_call4 f fuel k c = Ok (r, o, k') -> exists g', hash4_call Q fuel g c = Ok (r, o, g') /\ Rkh4 g' k'.
Proof.
  intros HR Hc E. destruct c as [ds n| |n]; cbn [kb_call4 hash4_call bytes_call4] in *.
  - apply bind_ok in E. destruct E as ([r1 k1] & E1 & E). inversion E; subst. destruct (any4_update _ _ _ _ _ _ _ HR Hc E1) as (g1 & Eg & HR1). rewrite Eg. cbn [bind]. exists g1. split; [reflexivity|exact HR1].
  - destruct HR as (H1 & H2 & H3 & H4). unfold kb_final4, hash4_final in *. rewrite H2, H3. apply bind_ok in E. destruct E as (s & E1 & E).
    destruct (any4_last _ _ _ _ H1 H4 E1) as (g1 & Eg & HM). rewrite Eg. cbn [bind]. destruct g1 as [g1|], s as [s|]; try contradiction.
    + apply bind_ok in E. destruct E as ([o1 s'] & E2 & E). destruct (any4_squeeze _ _ _ _ _ _ HM E2) as (g2 & Eg2 & HR). rewrite Eg2. cbn [bind].
      inversion E; subst. eexists. split; [reflexivity|exact (conj HR (conj eq_refl (conj eq_refl H4)))].
    + inversion E; subst. exists g. split; [reflexivity|exact (conj H1 (conj H2 (conj H3 H4)))].
  - unfold kb_squeeze4, hash4_squeeze in *. destruct (negb (N.eqb (n mod 8) 0)); [inversion E; subst; exists g; split; [reflexivity|exact HR]|].
    destruct HR as (H1 & H2 & H3 & H4). apply bind_ok in E. destruct E as ([o1 s] & E1 & E). inversion E; subst.
    destruct (any4_squeeze _ _ _ _ _ _ H1 E1) as (g' & Eg & HR). rewrite Eg. cbn [bind]. eexists. split; [reflexivity|]. exact (conj HR (conj H2 (conj H3 H4))).
Qed.
Lemma any4_calls fuel : forall cs g k l, Rkh4 g k -> Forall bytes_call4 cs -> kb_calls4 f fuel k cs = Ok l -> hash4_calls Q fuel g cs = Ok l.
Proof.
  induction cs as [|c cs IH]; intros g k l HR HF E; cbn [kb_calls4 hash4_calls] in *; [exact E|]. inversion_clear HF as [|? ? F1 F2].
  apply bind_ok in E. destruct E as ([[r o] k1] & E1 & E). apply bind_ok in E. destruct E as (l1 & E2 & E). inversion E; subst.
  destruct (any4_call _ _ _ _ _ _ _ HR F1 E1) as (g1 & Eg & HR1). rewrite Eg. cbn [bind]. rewrite (IH _ _ _ HR1 F2 E2). reflexivity.
Qed.
Theorem any4_session fuel m rate capacity hashbitlen suffix k cs l : length m = 800 -> (rate / 8 <= N.of_nat B)%N -> is_byte suffix -> Forall bytes_call4 cs ->
  kb_init4 rate capacity hashbitlen suffix = Some k -> kb_calls4 f fuel k cs = Ok l -> hash4_session Q fuel m rate capacity hashbitlen suffix cs = Ok (Some l).
Proof.
  intros Hm Hr Hb Hc Ek E. unfold kb_init4 in Ek. unfold hash4_session, hash4_initialize. destruct (N.eqb suffix 0); [discriminate|]. destruct (bad_rate rate capacity) eqn:Z; [discriminate|].
  destruct (sim4_init _ _ _ _ SIM m Hm) as (m' & Ei & HR). rewrite Ei. cbn [bind]. inversion Ek; subst.
  assert (Hrb : 1 <= N.to_nat rate / 8 <= B).
  { unfold bad_rate in Z. apply orb_false_iff in Z. destruct Z as [_ Z]. apply orb_false_iff in Z. destruct Z as [Z1 Z2]. apply orb_false_iff in Z1. destruct Z1 as [Z1 _]. apply N.leb_gt in Z1.
    apply negb_false_iff, N.eqb_eq in Z2. change 8 with (N.to_nat 8). rewrite <- N2Nat.inj_div. pose proof (N.div_mod rate 8 ltac:(discriminate)). lia. }
  erewrite (any4_calls fuel cs _ _ l); [reflexivity| |exact Hc|exact E]. split; [exact (conj HR (conj eq_refl (conj eq_refl (conj eq_refl Hrb))))|]. split; [reflexivity|]. split; [reflexivity|exact Hb].
Qed.
Theorem none4_session fuel m rate capacity hashbitlen suffix cs : kb_init4 rate capacity hashbitlen suffix = None -> hash4_session Q fuel m rate capacity hashbitlen suffix cs = Ok None.
Proof.
  intros E. unfold kb_init4 in E. unfold hash4_session, hash4_initialize. destruct (N.eqb suffix 0); [reflexivity|]. destruct (bad_rate rate capacity); [reflexivity|discriminate].
Qed.
End Sim4.
