(** An implementation of SnP that does to its representation of a state what the byte-wise operations of SpongeModel do to the
    200 bytes gives the hash functions of SpongeModel. *)
From Coq Require Import Arith NArith List Bool Lia.
From Verif Require Import Prelude SpongeModel SpongeApi SnpSponge.
Import ListNotations.

(** data that fits in memory: less than 2^63 bytes *)
Definition small (d : bytes) : Prop := (N.of_nat (length d) < 2 ^ 63)%N.
(** R m st: the memory m represents the state st.  size: the size of the memory. *)
Record simulates (P : snp) (size : nat) (R : bytes -> bytes -> Prop) (f : bytes -> bytes) : Prop := mkSim {
  sim_init : forall m, length m = size -> exists m', snp_init P m = Ok m' /\ R m' (repeat 0%N 200);
  sim_add_byte : forall m st b off st', R m st -> is_byte b -> add_byte st b off = Ok st' ->
    exists m', snp_add_byte P m b off = Ok m' /\ R m' st';
  sim_add_bytes : forall m st d off len st', R m st -> is_bytes d -> add_bytes st d off len = Ok st' ->
    exists m', snp_add_bytes P m d off len = Ok m' /\ R m' st';
  sim_extract : forall m st off len o, R m st -> (off = 0 -> (len < 200)%N) -> extract_bytes st off len = Ok o -> snp_extract P m off len = Ok o;
  sim_permute : forall m st, R m st -> exists m', snp_permute P m = Ok m' /\ R m' (f st);
  sim_fast : forall fuel m st lanes d st' d', R m st -> is_bytes d -> small d -> lanes = 17 \/ lanes = 21 -> absorb_blocks f (8 * lanes) fuel st d = Ok (st', d') ->
    exists m' j, snp_fast P fuel m lanes d = Ok (m', j) /\ R m' st' /\ skipn j d = d' }.

Lemma byte_128 : is_byte 128.
Proof. reflexivity. Qed.
Lemma skipn_bytes n (d : bytes) : is_bytes d -> is_bytes (skipn n d).
Proof. unfold is_bytes. rewrite !Forall_forall. intros H x Hx. apply H. rewrite <- (firstn_skipn n d). apply in_or_app. right. exact Hx. Qed.
Lemma firstn_bytes n (d : bytes) : is_bytes d -> is_bytes (firstn n d).
Proof. unfold is_bytes. rewrite !Forall_forall. intros H x Hx. apply H. rewrite <- (firstn_skipn n d). apply in_or_app. left. exact Hx. Qed.

Lemma skipn_small n (d : bytes) : small d -> small (skipn n d).
Proof. unfold small. intros H. rewrite skipn_length. eapply N.le_lt_trans; [|exact H]. lia. Qed.
Lemma firstn_small n (d : bytes) : small d -> small (firstn n d).
Proof. unfold small. intros H. rewrite firstn_length. eapply N.le_lt_trans; [|exact H]. lia. Qed.

Section Sim.
Variables (P : snp) (size : nat) (R : bytes -> bytes -> Prop) (f : bytes -> bytes).
Hypothesis SIM : simulates P size R f.

Lemma sim_absorb_loop rb (Hrb : rb = 136 \/ rb = 168) : forall fuel m st idx d st' idx', R m st -> is_bytes d -> small d ->
  absorb_loop f rb fuel st idx d = Ok (st', idx') -> exists m', g_absorb_loop P rb fuel m idx d = Ok (m', idx') /\ R m' st'.
Proof.
  induction fuel as [|fuel IH]; intros m st idx d st' idx' HR Hd Sd E; [discriminate|]. cbn [absorb_loop g_absorb_loop] in *.
  destruct (length d =? 0); [inversion E; subst; exists m; split; [reflexivity|exact HR]|].
  destruct ((idx =? 0) && (rb <=? length d)).
  - apply bind_ok in E. destruct E as ([st1 d1] & E1 & E).
    assert (M : rb mod (1600 / 200) =? 0 = true) by (destruct Hrb as [-> | ->]; reflexivity). rewrite M.
    assert (D : exists lanes, rb = 8 * lanes /\ rb / (1600 / 200) = lanes /\ (lanes = 17 \/ lanes = 21)) by (destruct Hrb as [-> | ->]; [exists 17|exists 21]; repeat split; auto).
    destruct D as (lanes & Er & El & HL). rewrite El. rewrite Er in E1.
    destruct (sim_fast _ _ _ _ SIM _ _ _ _ _ _ _ HR Hd Sd HL E1) as (m1 & j & Ef & HR1 & Ej). rewrite Ef. cbn [bind]. rewrite Ej.
    apply (IH m1 st1 idx d1); [exact HR1|subst d1; apply skipn_bytes; exact Hd|subst d1; apply skipn_small; exact Sd|exact E].
  - cbv zeta in *. apply bind_ok in E. destruct E as (st1 & E1 & E).
    destruct (sim_add_bytes _ _ _ _ SIM _ _ _ _ _ _ HR Hd E1) as (m1 & Ea & HR1). rewrite Ea. cbn [bind].
    match type of E with (if ?c then _ else _) = _ => destruct c end.
    + destruct (sim_permute _ _ _ _ SIM _ _ HR1) as (m2 & Ep & HR2). rewrite Ep. cbn [bind]. apply (IH m2 (f st1) 0); [exact HR2|apply skipn_bytes; exact Hd|apply skipn_small; exact Sd|exact E].
    + apply (IH m1 st1); [exact HR1|apply skipn_bytes; exact Hd|apply skipn_small; exact Sd|exact E].
Qed.
Lemma sim_squeeze_blocks rb (Hrb : rb = 136 \/ rb = 168) : forall fuel m st need o st' need', R m st ->
  squeeze_blocks f rb fuel st need = Ok (o, st', need') -> exists m', g_squeeze_blocks P rb fuel m need = Ok (o, m', need') /\ R m' st'.
Proof.
  induction fuel as [|fuel IH]; intros m st need o st' need' HR E; [discriminate|]. cbn [squeeze_blocks g_squeeze_blocks] in *.
  destruct (rb <=? need); [|inversion E; subst; exists m; split; [reflexivity|exact HR]].
  apply bind_ok in E. destruct E as (o1 & E1 & E). apply bind_ok in E. destruct E as ([[o2 st2] n2] & E2 & E). inversion E; subst.
  destruct (sim_permute _ _ _ _ SIM _ _ HR) as (m1 & Ep & HR1). rewrite Ep. cbn [bind].
  rewrite (sim_extract _ _ _ _ SIM m1 (f st) 0 (N.of_nat rb) o1 HR1 ltac:(intros; lia) E1). cbn [bind].
  destruct (IH m1 (f st) _ _ _ _ HR1 E2) as (m2 & Eg & HR2). rewrite Eg. cbn [bind]. exists m2. split; [reflexivity|exact HR2].
Qed.
Lemma u32_le x : (u32 x <= x)%N.
Proof. unfold u32. apply N.mod_le. discriminate. Qed.
Lemma piece_small rb need idx : rb < 200 -> idx = 0 ->
  ((if N.ltb (N.of_nat rb) (u32 (u32 (N.of_nat need) + N.of_nat idx)) then N.of_nat (rb - idx) else u32 (N.of_nat need)) < 200)%N.
Proof.
  intros Hrb ->. rewrite N.add_0_r. assert (E : u32 (u32 (N.of_nat need)) = u32 (N.of_nat need)) by (unfold u32; apply N.mod_mod; discriminate). rewrite E.
  destruct (N.ltb_spec (N.of_nat rb) (u32 (N.of_nat need))); lia.
Qed.
Lemma sim_squeeze_loop rb (Hrb : rb = 136 \/ rb = 168) : forall fuel m st idx need o st' idx', R m st ->
  squeeze_loop f rb fuel st idx need = Ok (o, st', idx') -> exists m', g_squeeze_loop P rb fuel m idx need = Ok (o, m', idx') /\ R m' st'.
Proof.
  induction fuel as [|fuel IH]; intros m st idx need o st' idx' HR E; [discriminate|]. cbn [squeeze_loop g_squeeze_loop] in *.
  destruct (need =? 0); [inversion E; subst; exists m; split; [reflexivity|exact HR]|].
  destruct ((idx =? rb) && (rb <=? need)).
  - apply bind_ok in E. destruct E as ([[o1 st1] n1] & E1 & E). apply bind_ok in E. destruct E as ([[o2 st2] i2] & E2 & E). inversion E; subst.
    destruct (sim_squeeze_blocks rb Hrb _ _ _ _ _ _ _ HR E1) as (m1 & Eg & HR1). rewrite Eg. cbn [bind].
    destruct (IH m1 st1 _ _ _ _ _ HR1 E2) as (m2 & Eg2 & HR2). rewrite Eg2. cbn [bind]. exists m2. split; [reflexivity|exact HR2].
  - assert (X : exists m1 st1 idx1, R m1 st1 /\ (if idx =? rb then (f st, 0) else (st, idx)) = (st1, idx1) /\
       (if idx =? rb then do m' <- snp_permute P m; Ok (m', 0) else Ok (m, idx)) = Ok (m1, idx1)).
    { destruct (idx =? rb); [|exists m, st, idx; auto]. destruct (sim_permute _ _ _ _ SIM _ _ HR) as (m1 & Ep & HR1). rewrite Ep. exists m1, (f st), 0. auto. }
    destruct X as (m1 & st1 & idx1 & HR1 & Es & Em). rewrite Em. cbn [bind]. rewrite Es in E. cbv zeta in *.
    apply bind_ok in E. destruct E as (o1 & E1 & E). apply bind_ok in E. destruct E as ([[o2 st2] i2] & E2 & E). inversion E; subst.
    rewrite (sim_extract _ _ _ _ SIM _ _ _ _ _ HR1 (piece_small rb need idx1 ltac:(lia)) E1). cbn [bind].
    destruct (IH m1 st1 _ _ _ _ _ HR1 E2) as (m2 & Eg & HR2). rewrite Eg. cbn [bind]. exists m2. split; [reflexivity|exact HR2].
Qed.

Definition Rs (g s : sponge) : Prop :=
  R (sp_state g) (sp_state s) /\ sp_rate g = sp_rate s /\ sp_idx g = sp_idx s /\ sp_squeezing g = sp_squeezing s /\ (sp_rate s = 1088 \/ sp_rate s = 1344).
Lemma rate_ok s : sp_rate s = 1088 \/ sp_rate s = 1344 -> sp_rate s / 8 = 136 \/ sp_rate s / 8 = 168.
Proof. intros [-> | ->]; [left|right]; reflexivity. Qed.
Lemma sim_absorb fuel g s d s' : Rs g s -> is_bytes d -> small d -> sponge_absorb f fuel s d = Ok s' -> exists g', g_sponge_absorb P fuel g d = Ok g' /\ Rs g' s'.
Proof.
  intros (H1 & H2 & H3 & H4 & H5) Hd Sd E. unfold sponge_absorb, g_sponge_absorb in *. rewrite H2, H3, H4. destruct (sp_squeezing s) eqn:Q.
  - inversion E; subst. exists g. split; [reflexivity|]. rewrite <- Q in H4. repeat split; assumption.
  - apply bind_ok in E. destruct E as ([st i] & E1 & E). inversion E; subst. destruct (sim_absorb_loop _ (rate_ok s H5) _ _ _ _ _ _ _ H1 Hd Sd E1) as (m' & Eg & HR).
    rewrite Eg. cbn [bind]. eexists. split; [reflexivity|]. repeat split; assumption.
Qed.
Lemma sim_last g s delim s' : Rs g s -> is_byte delim -> sponge_last f s delim = Ok s' ->
  exists g', g_sponge_last P g delim = Ok g' /\ match g', s' with Some g', Some s' => Rs g' s' | None, None => True | _, _ => False end.
Proof.
  intros (H1 & H2 & H3 & H4 & H5) Hb E. unfold sponge_last, g_sponge_last in *. rewrite H2, H3, H4. destruct (N.eqb delim 0); [inversion E; subst; exists None; auto|].
  destruct (sp_squeezing s); [inversion E; subst; exists None; auto|]. apply bind_ok in E. destruct E as (st1 & E1 & E). cbv zeta in E. apply bind_ok in E. destruct E as (st2 & E2 & E). inversion E; subst.
  destruct (sim_add_byte _ _ _ _ SIM _ _ _ _ _ H1 Hb E1) as (m1 & Ea & HR1). rewrite Ea. cbn [bind].
  assert (X : exists m2, (if N.leb 128 delim && (sp_idx s =? sp_rate s / 8 - 1) then snp_permute P m1 else Ok m1) = Ok m2 /\
     R m2 (if N.leb 128 delim && (sp_idx s =? sp_rate s / 8 - 1) then f st1 else st1)).
  { destruct (N.leb 128 delim && (sp_idx s =? sp_rate s / 8 - 1)); [apply (sim_permute _ _ _ _ SIM); exact HR1|exists m1; auto]. }
  destruct X as (m2 & Ex & HR2). rewrite Ex. cbn [bind].
  destruct (sim_add_byte _ _ _ _ SIM _ _ _ _ _ HR2 byte_128 E2) as (m3 & Ea2 & HR3). rewrite Ea2. cbn [bind].
  destruct (sim_permute _ _ _ _ SIM _ _ HR3) as (m4 & Ep & HR4). rewrite Ep. cbn [bind]. eexists. split; [reflexivity|]. repeat split; assumption.
Qed.
Lemma sim_squeeze fuel g s need o s' : Rs g s -> sponge_squeeze f fuel s need = Ok (o, s') -> exists g', g_sponge_squeeze P fuel g need = Ok (o, g') /\ Rs g' s'.
Proof.
  intros HR E. unfold sponge_squeeze, g_sponge_squeeze in *. apply bind_ok in E. destruct E as (s1 & E1 & E). 
  assert (X : exists g1, (if sp_squeezing g then Ok g else do g' <- g_sponge_last P g 1; Ok (match g' with Some g' => g' | None => g end)) = Ok g1 /\ Rs g1 s1).
  { destruct HR as (H1 & H2 & H3 & H4 & H5). rewrite H4. destruct (sp_squeezing s) eqn:Q; [inversion E1; subst; exists g; split; [reflexivity|repeat split; congruence]|].
    apply bind_ok in E1. destruct E1 as (s2 & E2 & E1). destruct (sim_last g s 1%N s2 ltac:(repeat split; congruence) ltac:(reflexivity) E2) as (g2 & Eg & HM). rewrite Eg. cbn [bind].
    eexists. split; [reflexivity|]. inversion E1; subst. destruct g2, s2; try contradiction; [exact HM|repeat split; congruence]. }
  destruct X as (g1 & Eg & (H1 & H2 & H3 & H4 & H5)). rewrite Eg. cbn [bind]. rewrite H2, H3, H4. apply bind_ok in E. destruct E as ([[o1 st1] i1] & E2 & E). inversion E; subst.
  destruct (sim_squeeze_loop _ (rate_ok s1 H5) _ _ _ _ _ _ _ _ H1 E2) as (m' & El & HR'). rewrite El. cbn [bind]. eexists. split; [reflexivity|]. repeat split; assumption.
Qed.

Definition Rk (g k : khash) : Prop := Rs (kh_sponge g) (kh_sponge k) /\ kh_fixed g = kh_fixed k /\ kh_suffix g = kh_suffix k /\ is_byte (kh_suffix k).
Lemma sim_initialize m rate cap fixed suffix k : length m = size -> rate = 1088 \/ rate = 1344 -> is_byte suffix -> keccak_initialize rate cap fixed suffix = Some k ->
  exists g, g_keccak_initialize P m rate cap fixed suffix = Ok (Some g) /\ Rk g k.
Proof.
  intros Hm Hr Hb E. unfold keccak_initialize, g_keccak_initialize, sponge_initialize, g_sponge_initialize in *.
  destruct (N.eqb suffix 0); [discriminate|]. destruct (negb (rate + cap =? 1600)); [discriminate|].
  destruct ((rate <=? 0) || (1600 <? rate) || negb (rate mod 8 =? 0)); [discriminate|].
  destruct (sim_init _ _ _ _ SIM m Hm) as (m' & Ei & HR). rewrite Ei. cbn [bind]. inversion E; subst. eexists. split; [reflexivity|]. repeat split; assumption.
Qed.
Lemma sim_hash_init m digest k : length m = size -> k_hash_init digest = Some k -> exists g, g_hash_init P m digest = Ok (Some g) /\ Rk g k.
Proof.
  intros Hm E. unfold k_hash_init, g_hash_init in *. destruct (digest =? 32); apply sim_initialize; auto; reflexivity.
Qed.
Lemma sim_hash_update fuel g k d k' : Rk g k -> is_bytes d -> small d -> k_hash_update f fuel k d = Ok k' -> exists g', g_hash_update P fuel g d = Ok g' /\ Rk g' k'.
Proof.
  intros (H1 & H2 & H3 & H4) Hd Sd E. unfold k_hash_update, g_hash_update in *. apply bind_ok in E. destruct E as (s & E1 & E). inversion E; subst.
  destruct (sim_absorb fuel _ _ _ _ H1 (firstn_bytes _ d Hd) (firstn_small _ d Sd) E1) as (g' & Eg & HR). rewrite Eg. cbn [bind]. eexists. split; [reflexivity|]. repeat split; cbn; try assumption; apply HR.
Qed.
Lemma sim_hash_final fuel g k k' : Rk g k -> k_hash_final f fuel k = Ok k' -> exists g', g_hash_final P fuel g = Ok g' /\ Rk g' k'.
Proof.
  intros (H1 & H2 & H3 & H4) E. unfold k_hash_final, g_hash_final in *. rewrite H2, H3. apply bind_ok in E. destruct E as (s & E1 & E).
  destruct (sim_last _ _ _ _ H1 H4 E1) as (g1 & Eg & HM). rewrite Eg. cbn [bind]. destruct g1 as [g1|], s as [s|]; try contradiction.
  - apply bind_ok in E. destruct E as ([o s'] & E2 & E). destruct (sim_squeeze _ _ _ _ _ _ HM E2) as (g2 & Eg2 & HR). rewrite Eg2. cbn [bind].
    destruct (length o =? 0); [|discriminate]. inversion E; subst. eexists. split; [reflexivity|]. repeat split; cbn; try assumption; apply HR.
  - inversion E; subst. exists g. split; [reflexivity|]. repeat split; try assumption; apply H1.
Qed.
Lemma sim_hash_squeeze fuel g k n o k' : Rk g k -> k_hash_squeeze f fuel k n = Ok (o, k') -> exists g', g_hash_squeeze P fuel g n = Ok (o, g') /\ Rk g' k'.
Proof.
  intros (H1 & H2 & H3 & H4) E. unfold k_hash_squeeze, g_hash_squeeze in *. apply bind_ok in E. destruct E as ([o1 s] & E1 & E). inversion E; subst.
  destruct (sim_squeeze _ _ _ _ _ _ H1 E1) as (g' & Eg & HR). rewrite Eg. cbn [bind]. eexists. split; [reflexivity|]. repeat split; cbn; try assumption; apply HR.
Qed.
Lemma sim_hash_squeezes fuel : forall lens g k os, Rk g k -> k_squeezes f fuel k lens = Ok os -> g_squeezes P fuel g lens = Ok os.
Proof.
  induction lens as [|n lens IH]; intros g k os HR E; cbn [k_squeezes g_squeezes] in *; [exact E|].
  apply bind_ok in E. destruct E as ([o k1] & E1 & E). apply bind_ok in E. destruct E as (os1 & E2 & E). inversion E; subst.
  destruct (sim_hash_squeeze _ _ _ _ _ _ HR E1) as (g1 & Eg & HR1). rewrite Eg. cbn [bind]. rewrite (IH _ _ _ HR1 E2). reflexivity.
Qed.
Lemma sim_hash_updates fuel : forall chunks g k k', Rk g k -> Forall is_bytes chunks -> Forall small chunks -> foldM (k_hash_update f fuel) chunks k = Ok k' ->
  exists g', foldM (g_hash_update P fuel) chunks g = Ok g' /\ Rk g' k'.
Proof.
  induction chunks as [|d chunks IH]; intros g k k' HR HF HS E; cbn [foldM] in *; [inversion E; subst; exists g; auto|].
  apply Forall_cons_iff in HF. destruct HF as [Hd HF]. apply Forall_cons_iff in HS. destruct HS as [Sd HS]. apply bind_ok in E. destruct E as (k1 & E1 & E).
  destruct (sim_hash_update _ _ _ _ _ HR Hd Sd E1) as (g1 & Eg & HR1). rewrite Eg. cbn [bind]. apply (IH _ _ _ HR1 HF HS E).
Qed.
Theorem sim_hash_run m fuel digest chunks lens os : length m = size -> Forall is_bytes chunks -> Forall small chunks ->
  hash_run f fuel digest chunks lens = Ok os -> g_hash_run P m fuel digest chunks lens = Ok os.
Proof.
  intros Hm HF HS E. unfold hash_run, g_hash_run in *. destruct (k_hash_init digest) as [k|] eqn:Ek; [|discriminate].
  destruct (sim_hash_init m digest k Hm Ek) as (g & Eg & HR). rewrite Eg. cbn [bind].
  apply bind_ok in E. destruct E as (k1 & E1 & E). destruct (sim_hash_updates _ _ _ _ _ HR HF HS E1) as (g1 & Eg1 & HR1). rewrite Eg1. cbn [bind].
  apply bind_ok in E. destruct E as (k2 & E2 & E). destruct (sim_hash_final _ _ _ _ HR1 E2) as (g2 & Eg2 & HR2). rewrite Eg2. cbn [bind].
  apply (sim_hash_squeezes _ _ _ _ _ HR2 E).
Qed.
End Sim.
