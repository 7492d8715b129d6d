(** The four-way version of SnpSim: an implementation of PlSnP that does to its representation of four states what the
    byte-wise operations do to four times 200 bytes gives the four-way hash functions of SpongeModel. *)
From Coq Require Import Arith NArith List Bool Lia.
From Verif Require Import Prelude SpongeModel SpongeApi SnpSponge SnpSim.
Import ListNotations.

Record simulates4 (Q : plsnp) (size : nat) (R : bytes -> list bytes -> Prop) (f : bytes -> bytes) : Prop := mkSim4 {
  sim4_four : forall m sts, R m sts -> length sts = 4;
  sim4_init : forall m, length m = size -> exists m', pl_init Q m = Ok m' /\ R m' (repeat (repeat 0%N 200) 4);
  sim4_add_byte : forall m sts i b off st', R m sts -> i < 4 -> is_byte b -> add_byte (nth i sts []) b off = Ok st' ->
    exists m', pl_add_byte Q m i b off = Ok m' /\ R m' (upd sts i st');
  sim4_add_bytes : forall m sts i d off len st', R m sts -> i < 4 -> is_bytes d -> add_bytes (nth i sts []) d off len = Ok st' ->
    exists m', pl_add_bytes Q m i d off len = Ok m' /\ R m' (upd sts i st');
  sim4_extract : forall m sts i off len o, R m sts -> i < 4 -> (off = 0 -> (len < 200)%N) -> extract_bytes (nth i sts []) off len = Ok o ->
    pl_extract Q m i off len = Ok o;
  sim4_permute : forall m sts, R m sts -> exists m', pl_permute Q m = Ok m' /\ R m' (map f sts) }.

Definition four_bytes (ds : list bytes) : Prop := length ds = 4 /\ Forall is_bytes ds.
Lemma four_map g ds : (forall d, is_bytes d -> is_bytes (g d)) -> four_bytes ds -> four_bytes (map g ds).
Proof. intros Hg [L F]. split; [rewrite map_length; exact L|]. apply Forall_forall. intros x Hx. apply in_map_iff in Hx. destruct Hx as (y & <- & Hy). apply Hg. rewrite Forall_forall in F. apply F. exact Hy. Qed.

Section Sim4.
Variables (Q : plsnp) (size : nat) (R : bytes -> list bytes -> Prop) (f : bytes -> bytes).
Hypothesis SIM : simulates4 Q size R f.

Lemma four_cases {A} (l : list A) : length l = 4 -> exists a b c d, l = [a; b; c; d].
Proof. intros H. destruct l as [|a [|b [|c [|d [|]]]]]; try discriminate. exists a, b, c, d. reflexivity. Qed.
Lemma g_add_bytes4_ok m sts ds off len sts' : R m sts -> four_bytes ds -> add_bytes4 sts ds off len = Ok sts' ->
  exists m', g_add_bytes4 Q m ds off len = Ok m' /\ R m' sts'.
Proof.
  intros HR [Ld Fd] E. pose proof (sim4_four _ _ _ _ SIM _ _ HR) as Ls.
  destruct (four_cases sts Ls) as (s0 & s1 & s2 & s3 & ->). destruct (four_cases ds Ld) as (d0 & d1 & d2 & d3 & ->).
  apply Forall_cons_iff in Fd. destruct Fd as [B0 Fd]. apply Forall_cons_iff in Fd. destruct Fd as [B1 Fd]. apply Forall_cons_iff in Fd. destruct Fd as [B2 Fd]. apply Forall_cons_iff in Fd. destruct Fd as [B3 _].
  unfold add_bytes4 in E. cbn [combine mapM fst snd] in E.
  apply bind_ok in E. destruct E as (t0 & E0 & E). apply bind_ok in E. destruct E as (l & E' & E). inversion E; subst sts'; clear E.
  apply bind_ok in E'. destruct E' as (t1 & E1 & E'). apply bind_ok in E'. destruct E' as (l' & E'' & E'). inversion E'; subst l; clear E'.
  apply bind_ok in E''. destruct E'' as (t2 & E2 & E''). apply bind_ok in E''. destruct E'' as (l & E''' & E''). inversion E''; subst l'; clear E''.
  apply bind_ok in E'''. destruct E''' as (t3 & E3 & E'''). cbn [bind] in E'''. inversion E'''; subst l; clear E'''.
  unfold g_add_bytes4. cbn [seq foldM nth].
  destruct (sim4_add_bytes _ _ _ _ SIM m _ 0 d0 off len t0 HR ltac:(lia) B0 E0) as (m0 & Em0 & HR0). rewrite Em0. cbn [bind upd] in *.
  destruct (sim4_add_bytes _ _ _ _ SIM m0 _ 1 d1 off len t1 HR0 ltac:(lia) B1 E1) as (m1 & Em1 & HR1). rewrite Em1. cbn [bind upd] in *.
  destruct (sim4_add_bytes _ _ _ _ SIM m1 _ 2 d2 off len t2 HR1 ltac:(lia) B2 E2) as (m2 & Em2 & HR2). rewrite Em2. cbn [bind upd] in *.
  destruct (sim4_add_bytes _ _ _ _ SIM m2 _ 3 d3 off len t3 HR2 ltac:(lia) B3 E3) as (m3 & Em3 & HR3). rewrite Em3. cbn [bind upd] in *.
  exists m3. split; [reflexivity|exact HR3].
Qed.
Lemma g_add_byte4_ok m sts b off sts' : R m sts -> is_byte b -> add_byte4 sts b off = Ok sts' ->
  exists m', g_add_byte4 Q m b off = Ok m' /\ R m' sts'.
Proof.
  intros HR Hb E. pose proof (sim4_four _ _ _ _ SIM _ _ HR) as Ls.
  destruct (four_cases sts Ls) as (s0 & s1 & s2 & s3 & ->). unfold add_byte4 in E. cbn [mapM] in E.
  apply bind_ok in E. destruct E as (t0 & E0 & E). apply bind_ok in E. destruct E as (l & E' & E). inversion E; subst sts'; clear E.
  apply bind_ok in E'. destruct E' as (t1 & E1 & E'). apply bind_ok in E'. destruct E' as (l' & E'' & E'). inversion E'; subst l; clear E'.
  apply bind_ok in E''. destruct E'' as (t2 & E2 & E''). apply bind_ok in E''. destruct E'' as (l & E''' & E''). inversion E''; subst l'; clear E''.
  apply bind_ok in E'''. destruct E''' as (t3 & E3 & E'''). cbn [bind] in E'''. inversion E'''; subst l; clear E'''.
  unfold g_add_byte4. cbn [seq foldM nth].
  destruct (sim4_add_byte _ _ _ _ SIM m _ 0 b off t0 HR ltac:(lia) Hb E0) as (m0 & Em0 & HR0). rewrite Em0. cbn [bind upd] in *.
  destruct (sim4_add_byte _ _ _ _ SIM m0 _ 1 b off t1 HR0 ltac:(lia) Hb E1) as (m1 & Em1 & HR1). rewrite Em1. cbn [bind upd] in *.
  destruct (sim4_add_byte _ _ _ _ SIM m1 _ 2 b off t2 HR1 ltac:(lia) Hb E2) as (m2 & Em2 & HR2). rewrite Em2. cbn [bind upd] in *.
  destruct (sim4_add_byte _ _ _ _ SIM m2 _ 3 b off t3 HR2 ltac:(lia) Hb E3) as (m3 & Em3 & HR3). rewrite Em3. cbn [bind upd] in *.
  exists m3. split; [reflexivity|exact HR3].
Qed.
Lemma g_extract4_ok m sts off len os : R m sts -> (off = 0 -> (len < 200)%N) -> extract_bytes4 sts off len = Ok os -> g_extract4 Q m off len = Ok os.
Proof.
  intros HR Hl E. pose proof (sim4_four _ _ _ _ SIM _ _ HR) as Ls.
  destruct (four_cases sts Ls) as (s0 & s1 & s2 & s3 & ->). unfold extract_bytes4 in E. cbn [mapM] in E.
  apply bind_ok in E. destruct E as (t0 & E0 & E). apply bind_ok in E. destruct E as (l & E' & E). inversion E; subst os; clear E.
  apply bind_ok in E'. destruct E' as (t1 & E1 & E'). apply bind_ok in E'. destruct E' as (l' & E'' & E'). inversion E'; subst l; clear E'.
  apply bind_ok in E''. destruct E'' as (t2 & E2 & E''). apply bind_ok in E''. destruct E'' as (l & E''' & E''). inversion E''; subst l'; clear E''.
  apply bind_ok in E'''. destruct E''' as (t3 & E3 & E'''). cbn [bind] in E'''. inversion E'''; subst l; clear E'''.
  unfold g_extract4. cbn [seq mapM].
  rewrite (sim4_extract _ _ _ _ SIM m _ 0 off len t0 HR ltac:(lia) Hl E0), (sim4_extract _ _ _ _ SIM m _ 1 off len t1 HR ltac:(lia) Hl E1),
    (sim4_extract _ _ _ _ SIM m _ 2 off len t2 HR ltac:(lia) Hl E2), (sim4_extract _ _ _ _ SIM m _ 3 off len t3 HR ltac:(lia) Hl E3). reflexivity.
Qed.
Lemma sim4_absorb_blocks rb : forall fuel m sts ds sts' ds', R m sts -> four_bytes ds -> absorb_blocks4 f rb fuel sts ds = Ok (sts', ds') ->
  exists m', g_absorb_blocks4 Q rb fuel m ds = Ok (m', ds') /\ R m' sts' /\ four_bytes ds'.
Proof.
  induction fuel as [|fuel IH]; intros m sts ds sts' ds' HR Hd E; [discriminate|]. cbn [absorb_blocks4 g_absorb_blocks4] in *.
  destruct (rb <=? len4 ds); [|inversion E; subst; exists m; repeat split; [exact HR|apply Hd|apply Hd]].
  apply bind_ok in E. destruct E as (sts1 & E1 & E). destruct (g_add_bytes4_ok _ _ _ _ _ _ HR Hd E1) as (m1 & Ea & HR1). rewrite Ea. cbn [bind].
  destruct (sim4_permute _ _ _ _ SIM _ _ HR1) as (m2 & Ep & HR2). rewrite Ep. cbn [bind].
  apply (IH m2 (map f sts1)); [exact HR2|apply four_map; [intros; apply skipn_bytes; assumption|exact Hd]|exact E].
Qed.
Lemma sim4_absorb_loop rb : forall fuel m sts idx ds sts' idx', R m sts -> four_bytes ds -> absorb_loop4 f rb fuel sts idx ds = Ok (sts', idx') ->
  exists m', g_absorb_loop4 Q rb fuel m idx ds = Ok (m', idx') /\ R m' sts'.
Proof.
  induction fuel as [|fuel IH]; intros m sts idx ds sts' idx' HR Hd E; [discriminate|]. cbn [absorb_loop4 g_absorb_loop4] in *.
  destruct (len4 ds =? 0); [inversion E; subst; exists m; split; [reflexivity|exact HR]|].
  destruct ((idx =? 0) && (rb <=? len4 ds)).
  - apply bind_ok in E. destruct E as ([sts1 ds1] & E1 & E). destruct (sim4_absorb_blocks rb _ _ _ _ _ _ HR Hd E1) as (m1 & Eg & HR1 & Hd1). rewrite Eg. cbn [bind].
    apply (IH m1 sts1 idx ds1); assumption.
  - cbv zeta in *. apply bind_ok in E. destruct E as (sts1 & E1 & E). destruct (g_add_bytes4_ok _ _ _ _ _ _ HR Hd E1) as (m1 & Ea & HR1). rewrite Ea. cbn [bind].
    match type of E with (if ?c then _ else _) = _ => destruct c end.
    + destruct (sim4_permute _ _ _ _ SIM _ _ HR1) as (m2 & Ep & HR2). rewrite Ep. cbn [bind]. apply (IH m2 (map f sts1) 0); [exact HR2|apply four_map; [intros; apply skipn_bytes; assumption|exact Hd]|exact E].
    + apply (IH m1 sts1); [exact HR1|apply four_map; [intros; apply skipn_bytes; assumption|exact Hd]|exact E].
Qed.
Lemma sim4_squeeze_blocks rb (Hrb : rb = 136 \/ rb = 168) : forall fuel m sts need o sts' need', R m sts ->
  squeeze_blocks4 f rb fuel sts need = Ok (o, sts', need') -> exists m', g_squeeze_blocks4 Q rb fuel m need = Ok (o, m', need') /\ R m' sts'.
Proof.
  induction fuel as [|fuel IH]; intros m sts need o sts' need' HR E; [discriminate|]. cbn [squeeze_blocks4 g_squeeze_blocks4] in *.
  destruct (rb <=? need); [|rewrite (sim4_four _ _ _ _ SIM _ _ HR) in E; inversion E; subst; exists m; split; [reflexivity|exact HR]].
  apply bind_ok in E. destruct E as (o1 & E1 & E). apply bind_ok in E. destruct E as ([[o2 st2] n2] & E2 & E). inversion E; subst.
  destruct (sim4_permute _ _ _ _ SIM _ _ HR) as (m1 & Ep & HR1). rewrite Ep. cbn [bind].
  rewrite (g_extract4_ok m1 (map f sts) 0 (N.of_nat rb) o1 HR1 ltac:(intros; lia) E1). cbn [bind].
  destruct (IH m1 (map f sts) _ _ _ _ HR1 E2) as (m2 & Eg & HR2). rewrite Eg. cbn [bind]. exists m2. split; [reflexivity|exact HR2].
Qed.
Lemma sim4_squeeze_loop rb (Hrb : rb = 136 \/ rb = 168) : forall fuel m sts idx need o sts' idx', R m sts ->
  squeeze_loop4 f rb fuel sts idx need = Ok (o, sts', idx') -> exists m', g_squeeze_loop4 Q rb fuel m idx need = Ok (o, m', idx') /\ R m' sts'.
Proof.
  induction fuel as [|fuel IH]; intros m st idx need o st' idx' HR E; [discriminate|]. cbn [squeeze_loop4 g_squeeze_loop4] in *.
  destruct (need =? 0); [rewrite (sim4_four _ _ _ _ SIM _ _ HR) in E; inversion E; subst; exists m; split; [reflexivity|exact HR]|].
  destruct ((idx =? rb) && (rb <=? need)).
  - apply bind_ok in E. destruct E as ([[o1 st1] n1] & E1 & E). apply bind_ok in E. destruct E as ([[o2 st2] i2] & E2 & E). inversion E; subst.
    destruct (sim4_squeeze_blocks rb Hrb _ _ _ _ _ _ _ HR E1) as (m1 & Eg & HR1). rewrite Eg. cbn [bind].
    destruct (IH m1 st1 _ _ _ _ _ HR1 E2) as (m2 & Eg2 & HR2). rewrite Eg2. cbn [bind]. exists m2. split; [reflexivity|exact HR2].
  - assert (X : exists m1 st1 idx1, R m1 st1 /\ (if idx =? rb then (map f st, 0) else (st, idx)) = (st1, idx1) /\
       (if idx =? rb then do m' <- pl_permute Q m; Ok (m', 0) else Ok (m, idx)) = Ok (m1, idx1)).
    { destruct (idx =? rb); [|exists m, st, idx; auto]. destruct (sim4_permute _ _ _ _ SIM _ _ HR) as (m1 & Ep & HR1). rewrite Ep. exists m1, (map f st), 0. auto. }
    destruct X as (m1 & st1 & idx1 & HR1 & Es & Em). rewrite Em. cbn [bind]. rewrite Es in E. cbv zeta in *.
    apply bind_ok in E. destruct E as (o1 & E1 & E). apply bind_ok in E. destruct E as ([[o2 st2] i2] & E2 & E). inversion E; subst.
    rewrite (g_extract4_ok _ _ _ _ _ HR1 (piece_small rb need idx1 ltac:(lia)) E1). cbn [bind].
    destruct (IH m1 st1 _ _ _ _ _ HR1 E2) as (m2 & Eg & HR2). rewrite Eg. cbn [bind]. exists m2. split; [reflexivity|exact HR2].
Qed.

Definition Rs4 (g : sponge) (s : sponge4) : Prop :=
  R (sp_state g) (sq_states s) /\ sp_rate g = sq_rate s /\ sp_idx g = sq_idx s /\ sp_squeezing g = sq_squeezing s /\ (sq_rate s = 1088 \/ sq_rate s = 1344).
Lemma rate_ok4 s : sq_rate s = 1088 \/ sq_rate s = 1344 -> sq_rate s / 8 = 136 \/ sq_rate s / 8 = 168.
Proof. intros [-> | ->]; [left|right]; reflexivity. Qed.
Lemma sim4_absorb fuel g s d s' : Rs4 g s -> four_bytes d -> sponge4_absorb f fuel s d = Ok s' -> exists g', g_sponge4_absorb Q fuel g d = Ok g' /\ Rs4 g' s'.
Proof.
  intros (H1 & H2 & H3 & H4 & H5) Hd E. unfold sponge4_absorb, g_sponge4_absorb in *. rewrite H2, H3, H4. destruct (sq_squeezing s) eqn:Z.
  - inversion E; subst. exists g. split; [reflexivity|]. rewrite <- Z in H4. repeat split; assumption.
  - apply bind_ok in E. destruct E as ([st i] & E1 & E). inversion E; subst. destruct (sim4_absorb_loop _ _ _ _ _ _ _ _ H1 Hd E1) as (m' & Eg & HR).
    rewrite Eg. cbn [bind]. eexists. split; [reflexivity|]. repeat split; assumption.
Qed.
Lemma sim4_last g s delim s' : Rs4 g s -> is_byte delim -> sponge4_last f s delim = Ok s' ->
  exists g', g_sponge4_last Q g delim = Ok g' /\ match g', s' with Some g', Some s' => Rs4 g' s' | None, None => True | _, _ => False end.
Proof.
  intros (H1 & H2 & H3 & H4 & H5) Hb E. unfold sponge4_last, g_sponge4_last in *. rewrite H2, H3, H4. destruct (N.eqb delim 0); [inversion E; subst; exists None; auto|].
  destruct (sq_squeezing s); [inversion E; subst; exists None; auto|]. apply bind_ok in E. destruct E as (st1 & E1 & E). cbv zeta in E. apply bind_ok in E. destruct E as (st2 & E2 & E). inversion E; subst.
  destruct (g_add_byte4_ok _ _ _ _ _ H1 Hb E1) as (m1 & Ea & HR1). rewrite Ea. cbn [bind].
  assert (X : exists m2, (if N.leb 128 delim && (sq_idx s =? sq_rate s / 8 - 1) then pl_permute Q m1 else Ok m1) = Ok m2 /\
     R m2 (if N.leb 128 delim && (sq_idx s =? sq_rate s / 8 - 1) then map f st1 else st1)).
  { destruct (N.leb 128 delim && (sq_idx s =? sq_rate s / 8 - 1)); [apply (sim4_permute _ _ _ _ SIM); exact HR1|exists m1; auto]. }
  destruct X as (m2 & Ex & HR2). rewrite Ex. cbn [bind].
  destruct (g_add_byte4_ok _ _ _ _ _ HR2 byte_128 E2) as (m3 & Ea2 & HR3). rewrite Ea2. cbn [bind].
  destruct (sim4_permute _ _ _ _ SIM _ _ HR3) as (m4 & Ep & HR4). rewrite Ep. cbn [bind]. eexists. split; [reflexivity|]. repeat split; assumption.
Qed.
Lemma sim4_squeeze fuel g s need o s' : Rs4 g s -> sponge4_squeeze f fuel s need = Ok (o, s') -> exists g', g_sponge4_squeeze Q fuel g need = Ok (o, g') /\ Rs4 g' s'.
Proof.
  intros HR E. unfold sponge4_squeeze, g_sponge4_squeeze in *. apply bind_ok in E. destruct E as (s1 & E1 & E).
  assert (X : exists g1, (if sp_squeezing g then Ok g else do g' <- g_sponge4_last Q g 1; Ok (match g' with Some g' => g' | None => g end)) = Ok g1 /\ Rs4 g1 s1).
  { destruct HR as (H1 & H2 & H3 & H4 & H5). rewrite H4. destruct (sq_squeezing s) eqn:Z; [inversion E1; subst; exists g; split; [reflexivity|repeat split; congruence]|].
    apply bind_ok in E1. destruct E1 as (s2 & E2 & E1). destruct (sim4_last g s 1%N s2 ltac:(repeat split; congruence) ltac:(reflexivity) E2) as (g2 & Eg & HM). rewrite Eg. cbn [bind].
    eexists. split; [reflexivity|]. inversion E1; subst. destruct g2, s2; try contradiction; [exact HM|repeat split; congruence]. }
  destruct X as (g1 & Eg & (H1 & H2 & H3 & H4 & H5)). rewrite Eg. cbn [bind]. rewrite H2, H3, H4. apply bind_ok in E. destruct E as ([[o1 st1] i1] & E2 & E). inversion E; subst.
  destruct (sim4_squeeze_loop _ (rate_ok4 s1 H5) _ _ _ _ _ _ _ _ H1 E2) as (m' & El & HR'). rewrite El. cbn [bind]. eexists. split; [reflexivity|]. repeat split; assumption.
Qed.

Definition Rk4 (g : khash) (k : khash4) : Prop := Rs4 (kh_sponge g) (kq_sponge k) /\ kh_fixed g = kq_fixed k /\ kh_suffix g = kq_suffix k /\ is_byte (kq_suffix k).
Lemma sim4_initialize m rate cap fixed suffix k : length m = size -> rate = 1088 \/ rate = 1344 -> is_byte suffix -> keccak4_initialize rate cap fixed suffix = Some k ->
  exists g, g_keccak4_initialize Q m rate cap fixed suffix = Ok (Some g) /\ Rk4 g k.
Proof.
  intros Hm Hr Hb E. unfold keccak4_initialize, g_keccak4_initialize, sponge4_initialize, g_sponge4_initialize in *.
  destruct (N.eqb suffix 0); [discriminate|]. destruct (negb (rate + cap =? 1600)); [discriminate|].
  destruct ((rate <=? 0) || (1600 <? rate) || negb (rate mod 8 =? 0)); [discriminate|].
  destruct (sim4_init _ _ _ _ SIM m Hm) as (m' & Ei & HR). rewrite Ei. cbn [bind]. inversion E; subst. eexists. split; [reflexivity|]. repeat split; assumption.
Qed.
Lemma sim4_hash_init m digest k : length m = size -> k_hash_init_x4 digest = Some k -> exists g, g_hash_init_x4 Q m digest = Ok (Some g) /\ Rk4 g k.
Proof.
  intros Hm E. unfold k_hash_init_x4, g_hash_init_x4 in *. destruct (digest =? 32); apply sim4_initialize; auto; reflexivity.
Qed.
Lemma sim4_hash_update fuel g k d k' : Rk4 g k -> four_bytes d -> k_hash_update_x4 f fuel k d = Ok k' -> exists g', g_hash_update_x4 Q fuel g d = Ok g' /\ Rk4 g' k'.
Proof.
  intros (H1 & H2 & H3 & H4) Hd E. unfold k_hash_update_x4, g_hash_update_x4 in *. apply bind_ok in E. destruct E as (s & E1 & E). inversion E; subst.
  destruct (sim4_absorb fuel _ _ _ _ H1 (four_map _ d (firstn_bytes _) Hd) E1) as (g' & Eg & HR). eexists. split; [refine (eq_trans (f_equal (fun x => bind x _) Eg) _); reflexivity|]. repeat split; cbn; try assumption; apply HR.
Qed.
Lemma sim4_hash_final fuel g k k' : Rk4 g k -> k_hash_final_x4 f fuel k = Ok k' -> exists g', g_hash_final_x4 Q fuel g = Ok g' /\ Rk4 g' k'.
Proof.
  intros (H1 & H2 & H3 & H4) E. unfold k_hash_final_x4, g_hash_final_x4 in *. rewrite H2, H3. apply bind_ok in E. destruct E as (s & E1 & E).
  destruct (sim4_last _ _ _ _ H1 H4 E1) as (g1 & Eg & HM). rewrite Eg. cbn [bind]. destruct g1 as [g1|], s as [s|]; try contradiction.
  - apply bind_ok in E. destruct E as ([o s'] & E2 & E). destruct (sim4_squeeze _ _ _ _ _ _ HM E2) as (g2 & Eg2 & HR). rewrite Eg2. cbn [bind].
    destruct (len4 o =? 0); [|discriminate]. inversion E; subst. eexists. split; [reflexivity|]. repeat split; cbn; try assumption; apply HR.
  - inversion E; subst. exists g. split; [reflexivity|]. repeat split; try assumption; apply H1.
Qed.
Lemma sim4_hash_squeeze fuel g k n o k' : Rk4 g k -> k_hash_squeeze_x4 f fuel k n = Ok (o, k') -> exists g', g_hash_squeeze_x4 Q fuel g n = Ok (o, g') /\ Rk4 g' k'.
Proof.
  intros (H1 & H2 & H3 & H4) E. unfold k_hash_squeeze_x4, g_hash_squeeze_x4 in *. apply bind_ok in E. destruct E as ([o1 s] & E1 & E). inversion E; subst.
  destruct (sim4_squeeze _ _ _ _ _ _ H1 E1) as (g' & Eg & HR). rewrite Eg. cbn [bind]. eexists. split; [reflexivity|]. repeat split; cbn; try assumption; apply HR.
Qed.
Lemma sim4_hash_squeezes fuel : forall lens g k os, Rk4 g k -> k_squeezes_x4 f fuel k lens = Ok os -> g_squeezes_x4 Q fuel g lens = Ok os.
Proof.
  induction lens as [|n lens IH]; intros g k os HR E; cbn [k_squeezes_x4 g_squeezes_x4] in *; [exact E|].
  apply bind_ok in E. destruct E as ([o k1] & E1 & E). apply bind_ok in E. destruct E as (os1 & E2 & E). inversion E; subst.
  destruct (sim4_hash_squeeze _ _ _ _ _ _ HR E1) as (g1 & Eg & HR1). rewrite Eg. cbn [bind]. rewrite (IH _ _ _ HR1 E2). reflexivity.
Qed.
Lemma sim4_hash_updates fuel : forall chunks g k k', Rk4 g k -> Forall four_bytes chunks -> foldM (k_hash_update_x4 f fuel) chunks k = Ok k' ->
  exists g', foldM (g_hash_update_x4 Q fuel) chunks g = Ok g' /\ Rk4 g' k'.
Proof.
  induction chunks as [|d chunks IH]; intros g k k' HR HF E; cbn [foldM] in *; [inversion E; subst; exists g; auto|].
  apply Forall_cons_iff in HF. destruct HF as [Hd HF]. apply bind_ok in E. destruct E as (k1 & E1 & E).
  destruct (sim4_hash_update _ _ _ _ _ HR Hd E1) as (g1 & Eg & HR1). rewrite Eg. cbn [bind]. apply (IH _ _ _ HR1 HF E).
Qed.
Theorem sim4_hash_run m fuel digest chunks lens os : length m = size -> Forall four_bytes chunks ->
  hash_run_x4 f fuel digest chunks lens = Ok os -> g_hash_run_x4 Q m fuel digest chunks lens = Ok os.
Proof.
  intros Hm HF E. unfold hash_run_x4, g_hash_run_x4 in *. destruct (k_hash_init_x4 digest) as [k|] eqn:Ek; [|discriminate].
  destruct (sim4_hash_init m digest k Hm Ek) as (g & Eg & HR). rewrite Eg. cbn [bind].
  apply bind_ok in E. destruct E as (k1 & E1 & E). destruct (sim4_hash_updates _ _ _ _ _ HR HF E1) as (g1 & Eg1 & HR1). rewrite Eg1. cbn [bind].
  apply bind_ok in E. destruct E as (k2 & E2 & E). destruct (sim4_hash_final _ _ _ _ HR1 E2) as (g2 & Eg2 & HR2). rewrite Eg2. cbn [bind].
  apply (sim4_hash_squeezes _ _ _ _ _ HR2 E).
Qed.
End Sim4.
