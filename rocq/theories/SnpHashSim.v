(** An implementation of SnP whose absorbing loop is right for every number of lanes gives the hash interface of BitHashModel, for
    every rate of at most B bytes, where B bounds what can be extracted from offset 0 in one call. *)
From Coq Require Import Arith NArith List Bool Lia.
From Verif Require Import Prelude SpongeModel SpongeApi BitHashSpec BitHashModel SnpSponge SnpSim SnpHash HashImplSpec.
Import ListNotations.

Record simulates_any (P : snp) (R : bytes -> bytes -> Prop) (f : bytes -> bytes) (B : nat) : Prop := mkAny {
  any_sim : simulates P 200 R f;
  any_extract : forall m st off len o, R m st -> (off = 0 -> (len <= N.of_nat B)%N) -> extract_bytes st off len = Ok o -> snp_extract P m off len = Ok o;
  any_fast : forall fuel m st lanes d st' d', R m st -> is_bytes d -> small d -> 1 <= lanes <= 25 -> absorb_blocks f (8 * lanes) fuel st d = Ok (st', d') ->
    exists m' j, snp_fast P fuel m lanes d = Ok (m', j) /\ R m' st' /\ skipn j d = d' }.

Section Sim.
Variables (P : snp) (R : bytes -> bytes -> Prop) (f : bytes -> bytes) (B : nat).
Hypothesis ANY : simulates_any P R f B.
Hypothesis HB : B <= 200.
Let SIM := any_sim P R f B ANY.

Lemma any_absorb_blocks rb : forall fuel m st d st' d', R m st -> is_bytes d -> absorb_blocks f rb fuel st d = Ok (st', d') ->
  exists m', g_absorb_blocks P rb fuel m d = Ok (m', d') /\ R m' st'.
Proof.
  induction fuel as [|fuel IH]; intros m st d st' d' HR Hd E; [discriminate|]. cbn [absorb_blocks g_absorb_blocks] in *.
  destruct (rb <=? length d); [|inversion E; subst; exists m; split; [reflexivity|exact HR]].
  apply bind_ok in E. destruct E as (st1 & E1 & E).
  destruct (sim_add_bytes _ _ _ _ SIM _ _ _ _ _ _ HR Hd E1) as (m1 & Ea & HR1). rewrite Ea. cbn [bind].
  destruct (sim_permute _ _ _ _ SIM _ _ HR1) as (m2 & Ep & HR2). rewrite Ep. cbn [bind].
  apply (IH m2 (f st1)); [exact HR2|apply skipn_bytes; exact Hd|exact E].
Qed.
Lemma rest_skipn rb : forall fuel st d st' d', absorb_blocks f rb fuel st d = Ok (st', d') -> (exists j, d' = skipn j d) /\ length d' < rb.
Proof.
  induction fuel as [|fuel IH]; intros st d st' d' E; [discriminate|]. cbn [absorb_blocks] in E.
  destruct (Nat.leb_spec rb (length d)) as [A|A]; [|inversion E; subst; split; [exists 0; reflexivity|exact A]].
  apply bind_ok in E. destruct E as (st1 & E1 & E). destruct (IH _ _ _ _ E) as ((j & Ej) & L). split; [|exact L]. exists (rb + j). rewrite Ej.
  clear. revert d. induction rb as [|a IHa]; intros d; [reflexivity|]. destruct d; [destruct j; reflexivity|]. cbn [skipn Nat.add]. apply IHa.
Qed.
Lemma whole_lanes rb : 1 <= rb <= B -> rb mod (1600 / 200) =? 0 = true -> exists lanes, rb = 8 * lanes /\ rb / (1600 / 200) = lanes /\ 1 <= lanes <= 25.
Proof.
  change (1600 / 200) with 8. intros H M. apply Nat.eqb_eq in M. exists (rb / 8). pose proof (Nat.div_mod rb 8 ltac:(discriminate)) as X. rewrite M in X.
  split; [lia|]. split; [reflexivity|]. lia.
Qed.
Lemma any_absorb_loop rb (Hrb : 1 <= rb <= B) : forall fuel m st idx d st' idx', R m st -> is_bytes d -> small d ->
  absorb_loop f rb fuel st idx d = Ok (st', idx') -> exists m', g_absorb_loop P rb fuel m idx d = Ok (m', idx') /\ R m' st'.
Proof.
  induction fuel as [|fuel IH]; intros m st idx d st' idx' HR Hd Sd E; [discriminate|]. cbn [absorb_loop g_absorb_loop] in *.
  destruct (length d =? 0); [inversion E; subst; exists m; split; [reflexivity|exact HR]|].
  destruct ((idx =? 0) && (rb <=? length d)).
  - apply bind_ok in E. destruct E as ([st1 d1] & E1 & E). destruct (rest_skipn _ _ _ _ _ _ E1) as ((j0 & Ed) & _).
    destruct (rb mod (1600 / 200) =? 0) eqn:M.
    + destruct (whole_lanes rb Hrb M) as (lanes & Er & El & HL). rewrite El. rewrite Er in E1.
      destruct (any_fast _ _ _ _ ANY _ _ _ _ _ _ _ HR Hd Sd HL E1) as (m1 & j & Ef & HR1 & Ej). rewrite Ef. cbn [bind]. rewrite Ej.
      apply (IH m1 st1 idx d1); [exact HR1|subst d1; apply skipn_bytes; exact Hd|subst d1; apply skipn_small; exact Sd|exact E].
    + destruct (any_absorb_blocks _ _ _ _ _ _ _ HR Hd E1) as (m1 & Ef & HR1). rewrite Ef. cbn [bind].
      apply (IH m1 st1 idx d1); [exact HR1|rewrite Ed; apply skipn_bytes; exact Hd|rewrite Ed; apply skipn_small; exact Sd|exact E].
  - cbv zeta in *. apply bind_ok in E. destruct E as (st1 & E1 & E).
    destruct (sim_add_bytes _ _ _ _ SIM _ _ _ _ _ _ HR Hd E1) as (m1 & Ea & HR1). rewrite Ea. cbn [bind].
    match type of E with (if ?c then _ else _) = _ => destruct c end.
    + destruct (sim_permute _ _ _ _ SIM _ _ HR1) as (m2 & Ep & HR2). rewrite Ep. cbn [bind]. apply (IH m2 (f st1) 0); [exact HR2|apply skipn_bytes; exact Hd|apply skipn_small; exact Sd|exact E].
    + apply (IH m1 st1); [exact HR1|apply skipn_bytes; exact Hd|apply skipn_small; exact Sd|exact E].
Qed.
Lemma any_squeeze_blocks rb (Hrb : 1 <= rb <= B) : forall fuel m st need o st' need', R m st ->
  squeeze_blocks f rb fuel st need = Ok (o, st', need') -> exists m', g_squeeze_blocks P rb fuel m need = Ok (o, m', need') /\ R m' st'.
Proof.
  induction fuel as [|fuel IH]; intros m st need o st' need' HR E; [discriminate|]. cbn [squeeze_blocks g_squeeze_blocks] in *.
  destruct (rb <=? need); [|inversion E; subst; exists m; split; [reflexivity|exact HR]].
  apply bind_ok in E. destruct E as (o1 & E1 & E). apply bind_ok in E. destruct E as ([[o2 st2] n2] & E2 & E). inversion E; subst.
  destruct (sim_permute _ _ _ _ SIM _ _ HR) as (m1 & Ep & HR1). rewrite Ep. cbn [bind].
  rewrite (any_extract _ _ _ _ ANY m1 (f st) 0 (N.of_nat rb) o1 HR1 ltac:(intros; lia) E1). cbn [bind].
  destruct (IH m1 (f st) _ _ _ _ HR1 E2) as (m2 & Eg & HR2). rewrite Eg. cbn [bind]. exists m2. split; [reflexivity|exact HR2].
Qed.
Lemma piece_any rb need idx : rb <= B -> idx = 0 ->
  ((if N.ltb (N.of_nat rb) (u32 (u32 (N.of_nat need) + N.of_nat idx)) then N.of_nat (rb - idx) else u32 (N.of_nat need)) <= N.of_nat B)%N.
Proof.
  intros Hrb ->. rewrite N.add_0_r. assert (E : u32 (u32 (N.of_nat need)) = u32 (N.of_nat need)) by (unfold u32; apply N.mod_mod; discriminate). rewrite E.
  destruct (N.ltb_spec (N.of_nat rb) (u32 (N.of_nat need))); lia.
Qed.
Lemma any_squeeze_loop rb (Hrb : 1 <= rb <= B) : forall fuel m st idx need o st' idx', R m st ->
  squeeze_loop f rb fuel st idx need = Ok (o, st', idx') -> exists m', g_squeeze_loop P rb fuel m idx need = Ok (o, m', idx') /\ R m' st'.
Proof.
  induction fuel as [|fuel IH]; intros m st idx need o st' idx' HR E; [discriminate|]. cbn [squeeze_loop g_squeeze_loop] in *.
  destruct (need =? 0); [inversion E; subst; exists m; split; [reflexivity|exact HR]|].
  destruct ((idx =? rb) && (rb <=? need)).
  - apply bind_ok in E. destruct E as ([[o1 st1] n1] & E1 & E). apply bind_ok in E. destruct E as ([[o2 st2] i2] & E2 & E). inversion E; subst.
    destruct (any_squeeze_blocks rb Hrb _ _ _ _ _ _ _ HR E1) as (m1 & Eg & HR1). rewrite Eg. cbn [bind].
    destruct (IH m1 st1 _ _ _ _ _ HR1 E2) as (m2 & Eg2 & HR2). rewrite Eg2. cbn [bind]. exists m2. split; [reflexivity|exact HR2].
  - assert (X : exists m1 st1 idx1, R m1 st1 /\ (if idx =? rb then (f st, 0) else (st, idx)) = (st1, idx1) /\
       (if idx =? rb then do m' <- snp_permute P m; Ok (m', 0) else Ok (m, idx)) = Ok (m1, idx1)).
    { destruct (idx =? rb); [|exists m, st, idx; auto]. destruct (sim_permute _ _ _ _ SIM _ _ HR) as (m1 & Ep & HR1). rewrite Ep. exists m1, (f st), 0. auto. }
    destruct X as (m1 & st1 & idx1 & HR1 & Es & Em). rewrite Em. cbn [bind]. rewrite Es in E. cbv zeta in *.
    apply bind_ok in E. destruct E as (o1 & E1 & E). apply bind_ok in E. destruct E as ([[o2 st2] i2] & E2 & E). inversion E; subst.
    rewrite (any_extract _ _ _ _ ANY _ _ _ _ _ HR1 (piece_any rb need idx1 ltac:(lia)) E1). cbn [bind].
    destruct (IH m1 st1 _ _ _ _ _ HR1 E2) as (m2 & Eg & HR2). rewrite Eg. cbn [bind]. exists m2. split; [reflexivity|exact HR2].
Qed.

Definition Rsp (g s : sponge) : Prop :=
  R (sp_state g) (sp_state s) /\ sp_rate g = sp_rate s /\ sp_idx g = sp_idx s /\ sp_squeezing g = sp_squeezing s /\ 1 <= sp_rate s / 8 <= B.
Lemma any_absorb fuel g s d s' : Rsp g s -> is_bytes d -> small d -> sponge_absorb f fuel s d = Ok s' -> exists g', g_sponge_absorb P fuel g d = Ok g' /\ Rsp g' s'.
Proof.
  intros (H1 & H2 & H3 & H4 & H5) Hd Sd E. unfold sponge_absorb, g_sponge_absorb in *. rewrite H2, H3, H4. destruct (sp_squeezing s) eqn:Q.
  - inversion E; subst. exists g. split; [reflexivity|]. rewrite <- Q in H4. exact (conj H1 (conj H2 (conj H3 (conj H4 H5)))).
  - apply bind_ok in E. destruct E as ([st i] & E1 & E). inversion E; subst. destruct (any_absorb_loop _ H5 _ _ _ _ _ _ _ H1 Hd Sd E1) as (m' & Eg & HR).
    rewrite Eg. cbn [bind]. eexists. split; [reflexivity|]. exact (conj HR (conj eq_refl (conj eq_refl (conj eq_refl H5)))).
Qed.
Lemma any_last g s delim s' : Rsp g s -> is_byte delim -> sponge_last f s delim = Ok s' ->
  exists g', g_sponge_last P g delim = Ok g' /\ match g', s' with Some g', Some s' => Rsp g' s' | None, None => True | _, _ => False end.
Proof.
  intros (H1 & H2 & H3 & H4 & H5) Hb E. unfold sponge_last, g_sponge_last in *. rewrite H2, H3, H4. destruct (N.eqb delim 0); [inversion E; subst; exists None; auto|].
  destruct (sp_squeezing s); [inversion E; subst; exists None; auto|]. apply bind_ok in E. destruct E as (st1 & E1 & E). cbv zeta in E. apply bind_ok in E. destruct E as (st2 & E2 & E). inversion E; subst.
  destruct (sim_add_byte _ _ _ _ SIM _ _ _ _ _ H1 Hb E1) as (m1 & Ea & HR1). rewrite Ea. cbn [bind].
  assert (X : exists m2, (if N.leb 128 delim && (sp_idx s =? sp_rate s / 8 - 1) then snp_permute P m1 else Ok m1) = Ok m2 /\
     R m2 (if N.leb 128 delim && (sp_idx s =? sp_rate s / 8 - 1) then f st1 else st1)).
  { destruct (N.leb 128 delim && (sp_idx s =? sp_rate s / 8 - 1)); [apply (sim_permute _ _ _ _ SIM); exact HR1|exists m1; auto]. }
  destruct X as (m2 & Ex & HR2). rewrite Ex. cbn [bind].
  destruct (sim_add_byte _ _ _ _ SIM _ _ _ _ _ HR2 byte_128 E2) as (m3 & Ea2 & HR3). rewrite Ea2. cbn [bind].
  destruct (sim_permute _ _ _ _ SIM _ _ HR3) as (m4 & Ep & HR4). rewrite Ep. cbn [bind]. eexists. split; [reflexivity|]. exact (conj HR4 (conj eq_refl (conj eq_refl (conj eq_refl H5)))).
Qed.
Lemma any_squeeze fuel g s need o s' : Rsp g s -> sponge_squeeze f fuel s need = Ok (o, s') -> exists g', g_sponge_squeeze P fuel g need = Ok (o, g') /\ Rsp g' s'.
Proof.
  intros HR E. unfold sponge_squeeze, g_sponge_squeeze in *. apply bind_ok in E. destruct E as (s1 & E1 & E).
  assert (X : exists g1, (if sp_squeezing g then Ok g else do g' <- g_sponge_last P g 1; Ok (match g' with Some g' => g' | None => g end)) = Ok g1 /\ Rsp g1 s1).
  { assert (HR' := HR). destruct HR' as (_ & _ & _ & H4 & _). rewrite H4. destruct (sp_squeezing s) eqn:Q; [inversion E1; subst; exists g; split; [reflexivity|exact HR]|].
    apply bind_ok in E1. destruct E1 as (s2 & E2 & E1). destruct (any_last g s 1%N s2 HR ltac:(reflexivity) E2) as (g2 & Eg & HM). rewrite Eg. cbn [bind].
    eexists. split; [reflexivity|]. inversion E1; subst. destruct g2, s2; try contradiction; [exact HM|exact HR]. }
  destruct X as (g1 & Eg & (H1 & H2 & H3 & H4 & H5)). rewrite Eg. cbn [bind]. rewrite H2, H3, H4. apply bind_ok in E. destruct E as ([[o1 st1] i1] & E2 & E). inversion E; subst.
  destruct (any_squeeze_loop _ H5 _ _ _ _ _ _ _ _ H1 E2) as (m' & El & HR'). rewrite El. cbn [bind]. eexists. split; [reflexivity|]. exact (conj HR' (conj eq_refl (conj eq_refl (conj eq_refl H5)))).
Qed.

Definition Rkh (g k : khash) : Prop := Rsp (kh_sponge g) (kh_sponge k) /\ kh_fixed g = kh_fixed k /\ kh_suffix g = kh_suffix k /\ is_byte (kh_suffix k).
Lemma land_byte x : is_byte (N.land x 0xFF).
Proof. unfold is_byte. change 0xFF%N with (N.ones 8). rewrite N.land_ones. apply N.mod_lt. discriminate. Qed.
Lemma any_update fuel g k d n r k' : Rkh g k -> is_bytes d -> (n / 8 < 2 ^ 63)%N -> kb_update f fuel k d n = Ok (r, k') ->
  exists g', hash_update P fuel g d n = Ok (r, g') /\ Rkh g' k'.
Proof.
  intros (H1 & H2 & H3 & H4) Hd Sd E. unfold kb_update, hash_update in *. assert (H1' := H1). destruct H1' as (_ & _ & _ & Q & _). rewrite Q, H2, H3.
  destruct (sp_squeezing (kh_sponge k)); [inversion E; subst; exists g; split; [reflexivity|exact (conj H1 (conj H2 (conj H3 H4)))]|].
  destruct (N.ltb (N.of_nat (length d)) (n / 8)); [discriminate|]. apply bind_ok in E. destruct E as (s & E1 & E).
  assert (Sf : small (firstn (N.to_nat (n / 8)) d)).
  { unfold small. rewrite firstn_length. eapply N.le_lt_trans; [|exact Sd]. lia. }
  destruct (any_absorb fuel _ _ _ _ H1 (firstn_bytes _ d Hd) Sf E1) as (g1 & Eg & HR). rewrite Eg. cbn [bind].
  destruct (N.eqb (n mod 8) 0); [inversion E; subst; eexists; split; [reflexivity|exact (conj HR (conj eq_refl (conj eq_refl H4)))]|].
  destruct (nth_error d (N.to_nat (n / 8))) as [last|]; [|discriminate]. cbv zeta in *.
  destruct (N.eqb (N.land (last_bytes (n mod 8) last (kh_suffix k)) 0xFF00) 0); [inversion E; subst; eexists; split; [reflexivity|exact (conj HR (conj eq_refl (conj eq_refl (land_byte _))))]|].
  apply bind_ok in E. destruct E as (s2 & E2 & E). inversion E; subst.
  destruct (any_absorb fuel _ _ [N.land (last_bytes (n mod 8) last (kh_suffix k)) 0xFF] _ HR ltac:(constructor; [apply land_byte|constructor]) ltac:(reflexivity) E2) as (g2 & Eg2 & HR2). rewrite Eg2. cbn [bind].
  eexists. split; [reflexivity|exact (conj HR2 (conj eq_refl (conj eq_refl (land_byte _))))].
Qed.
Lemma any_call fuel g k c r o k' : Rkh g k -> machine_call c -> kb_call f fuel k c = Ok (r, o, k') -> exists g', hash_call P fuel g c = Ok (r, o, g') /\ Rkh g' k'.
Proof.
  intros HR Hc E. destruct c as [d n| |n]; cbn [kb_call hash_call machine_call] in *.
  - apply bind_ok in E. destruct E as ([r1 k1] & E1 & E). inversion E; subst. destruct Hc as [Hd Sn]. assert (Sd : (n / 8 < 2 ^ 63)%N) by (apply N.div_lt_upper_bound; [discriminate|]; eapply N.lt_trans; [exact Sn|reflexivity]). destruct (any_update _ _ _ _ _ _ _ HR Hd Sd E1) as (g1 & Eg & HR1). rewrite Eg. cbn [bind]. exists g1. split; [reflexivity|exact HR1].
  - destruct HR as (H1 & H2 & H3 & H4). unfold kb_final, hash_final in *. rewrite H2, H3. apply bind_ok in E. destruct E as (s & E1 & E).
    destruct (any_last _ _ _ _ H1 H4 E1) as (g1 & Eg & HM). rewrite Eg. cbn [bind]. destruct g1 as [g1|], s as [s|]; try contradiction.
    + apply bind_ok in E. destruct E as ([o1 s'] & E2 & E). destruct (any_squeeze _ _ _ _ _ _ HM E2) as (g2 & Eg2 & HR). rewrite Eg2. cbn [bind].
      inversion E; subst. eexists. split; [reflexivity|exact (conj HR (conj eq_refl (conj eq_refl H4)))].
    + inversion E; subst. exists g. split; [reflexivity|exact (conj H1 (conj H2 (conj H3 H4)))].
  - unfold kb_squeeze, hash_squeeze in *. destruct (negb (N.eqb (n mod 8) 0)); [inversion E; subst; exists g; split; [reflexivity|exact HR]|].
    destruct HR as (H1 & H2 & H3 & H4). apply bind_ok in E. destruct E as ([o1 s] & E1 & E). inversion E; subst.
    destruct (any_squeeze _ _ _ _ _ _ H1 E1) as (g' & Eg & HR). rewrite Eg. cbn [bind]. eexists. split; [reflexivity|]. exact (conj HR (conj H2 (conj H3 H4))).
Qed.
Lemma any_calls fuel : forall cs g k l, Rkh g k -> Forall machine_call cs -> kb_calls f fuel k cs = Ok l -> hash_calls P fuel g cs = Ok l.
Proof.
  induction cs as [|c cs IH]; intros g k l HR HF E; cbn [kb_calls hash_calls] in *; [exact E|]. inversion_clear HF as [|? ? F1 F2].
  apply bind_ok in E. destruct E as ([[r o] k1] & E1 & E). apply bind_ok in E. destruct E as (l1 & E2 & E). inversion E; subst.
  destruct (any_call _ _ _ _ _ _ _ HR F1 E1) as (g1 & Eg & HR1). rewrite Eg. cbn [bind]. rewrite (IH _ _ _ HR1 F2 E2). reflexivity.
Qed.
Theorem any_session fuel m rate capacity hashbitlen suffix k cs l : length m = 200 -> (rate / 8 <= N.of_nat B)%N -> is_byte suffix -> Forall machine_call cs ->
  kb_init rate capacity hashbitlen suffix = Some k -> kb_calls f fuel k cs = Ok l -> hash_session P fuel m rate capacity hashbitlen suffix cs = Ok (Some l).
Proof.
  intros Hm Hr Hb Hc Ek E. unfold kb_init in Ek. unfold hash_session, hash_initialize. destruct (N.eqb suffix 0); [discriminate|]. destruct (bad_rate rate capacity) eqn:Q; [discriminate|].
  destruct (sim_init _ _ _ _ SIM m Hm) as (m' & Ei & HR). rewrite Ei. cbn [bind]. inversion Ek; subst.
  assert (Hrb : 1 <= N.to_nat rate / 8 <= B).
  { unfold bad_rate in Q. apply orb_false_iff in Q. destruct Q as [_ Q]. apply orb_false_iff in Q. destruct Q as [Q1 Q2]. apply orb_false_iff in Q1. destruct Q1 as [Q1 _]. apply N.leb_gt in Q1.
    apply negb_false_iff, N.eqb_eq in Q2. change 8 with (N.to_nat 8). rewrite <- N2Nat.inj_div. pose proof (N.div_mod rate 8 ltac:(discriminate)). lia. }
  erewrite (any_calls fuel cs _ _ l); [reflexivity| |exact Hc|exact E]. split; [exact (conj HR (conj eq_refl (conj eq_refl (conj eq_refl Hrb))))|]. split; [reflexivity|]. split; [reflexivity|exact Hb].
Qed.
Theorem none_session fuel m rate capacity hashbitlen suffix cs : kb_init rate capacity hashbitlen suffix = None -> hash_session P fuel m rate capacity hashbitlen suffix cs = Ok None.
Proof.
  intros E. unfold kb_init in E. unfold hash_session, hash_initialize. destruct (N.eqb suffix 0); [reflexivity|]. destruct (bad_rate rate capacity); [reflexivity|discriminate].
Qed.

Lemma any_output rb (Hrb : 1 <= rb <= B) : forall fuel m st need o, R m st -> oneshot_squeeze f rb fuel st need = Ok o -> sponge_output P rb fuel m need = Ok o.
Proof.
  induction fuel as [|fuel IH]; intros m st need o HR E; [discriminate|]. cbn [oneshot_squeeze sponge_output] in *. destruct (Nat.ltb_spec rb need) as [A|A].
  - apply bind_ok in E. destruct E as (o1 & E1 & E). apply bind_ok in E. destruct E as (o2 & E2 & E). inversion E; subst.
    rewrite (any_extract _ _ _ _ ANY m st 0 (N.of_nat rb) o1 HR ltac:(intros; lia) E1). cbn [bind].
    destruct (sim_permute _ _ _ _ SIM _ _ HR) as (m1 & Ep & HR1). rewrite Ep. cbn [bind]. rewrite (IH _ _ _ _ HR1 E2). reflexivity.
  - apply (any_extract _ _ _ _ ANY m st); [exact HR| |exact E]. intros _. pose proof (u32_le (N.of_nat need)). lia.
Qed.
Theorem any_oneshot fuel m rate capacity input suffix outlen o : length m = 200 -> (rate / 8 <= N.of_nat B)%N -> is_byte suffix -> is_bytes input -> small input ->
  oneshot f fuel rate capacity input suffix outlen = Ok o -> sponge_function P fuel m rate capacity input suffix outlen = Ok o.
Proof.
  intros Hm Hr Hb Hi Si E. unfold oneshot, sponge_function in *. cbv zeta in *. destruct (bad_rate rate capacity) eqn:Q; [exact E|]. destruct (N.eqb suffix 0); [exact E|].
  assert (Hrb : 1 <= N.to_nat (rate / 8) <= B).
  { unfold bad_rate in Q. apply orb_false_iff in Q. destruct Q as [_ Q]. apply orb_false_iff in Q. destruct Q as [Q1 Q2]. apply orb_false_iff in Q1. destruct Q1 as [Q1 _]. apply N.leb_gt in Q1.
    apply negb_false_iff, N.eqb_eq in Q2. pose proof (N.div_mod rate 8 ltac:(discriminate)). lia. }
  revert E Hrb. generalize (N.to_nat (rate / 8)). intros rb E Hrb.
  destruct (sim_init _ _ _ _ SIM m Hm) as (m0 & Ei & HR0). rewrite Ei. cbn [bind].
  apply bind_ok in E. destruct E as ([st rest] & E1 & E). destruct (rest_skipn _ _ _ _ _ _ E1) as ((j0 & Ed) & L).
  assert (X : exists m1 d1, (if (rb mod (1600 / 200) =? 0) && (rb <=? length input) then do (m', j) <- snp_fast P fuel m0 (rb / (1600 / 200)) input; Ok (m', skipn j input) else Ok (m0, input)) = Ok (m1, d1) /\
      exists m2, g_absorb_blocks P rb fuel m1 d1 = Ok (m2, rest) /\ R m2 st).
  { destruct (rb mod (1600 / 200) =? 0) eqn:M; cbn [andb]; [destruct (rb <=? length input)|].
    - destruct (whole_lanes rb Hrb M) as (lanes & Er & El & HL). rewrite El. rewrite Er in E1.
      destruct (any_fast _ _ _ _ ANY _ _ _ _ _ _ _ HR0 Hi Si HL E1) as (m1 & j & Ef & HR1 & Ej). rewrite Ef. cbn [bind]. exists m1, (skipn j input). split; [reflexivity|].
      exists m1. split; [|exact HR1]. rewrite Ej. destruct fuel; [discriminate|]. cbn [g_absorb_blocks]. destruct (Nat.leb_spec rb (length rest)); [lia|reflexivity].
    - exists m0, input. split; [reflexivity|]. apply (any_absorb_blocks _ _ _ _ _ _ _ HR0 Hi E1).
    - exists m0, input. split; [reflexivity|]. apply (any_absorb_blocks _ _ _ _ _ _ _ HR0 Hi E1). }
  destruct X as (m1 & d1 & X1 & m2 & X2 & HR2). rewrite X1. cbn [bind]. rewrite X2. cbn [bind].
  apply bind_ok in E. destruct E as (st1 & E2 & E). apply bind_ok in E. destruct E as (st2 & E3 & E). apply bind_ok in E. destruct E as (st3 & E4 & E).
  assert (Br : is_bytes rest) by (rewrite Ed; apply skipn_bytes; exact Hi).
  destruct (sim_add_bytes _ _ _ _ SIM _ _ _ _ _ _ HR2 Br E2) as (m3 & F2 & HR3). rewrite F2. cbn [bind].
  destruct (sim_add_byte _ _ _ _ SIM _ _ _ _ _ HR3 Hb E3) as (m4 & F3 & HR4). rewrite F3. cbn [bind].
  assert (Y : exists m5, (if N.leb 128 suffix && N.eqb (u32 (N.of_nat (length rest))) (N.of_nat (rb - 1)) then snp_permute P m4 else Ok m4) = Ok m5 /\
     R m5 (if N.leb 128 suffix && N.eqb (u32 (N.of_nat (length rest))) (N.of_nat (rb - 1)) then f st2 else st2)).
  { destruct (N.leb 128 suffix && N.eqb (u32 (N.of_nat (length rest))) (N.of_nat (rb - 1))); [apply (sim_permute _ _ _ _ SIM); exact HR4|exists m4; auto]. }
  destruct Y as (m5 & F4 & HR5). rewrite F4. cbn [bind].
  destruct (sim_add_byte _ _ _ _ SIM _ _ _ _ _ HR5 byte_128 E4) as (m6 & F5 & HR6). rewrite F5. cbn [bind].
  destruct (sim_permute _ _ _ _ SIM _ _ HR6) as (m7 & F6 & HR7). rewrite F6. cbn [bind].
  apply bind_ok in E. destruct E as (o1 & E5 & E). inversion E; subst. rewrite (any_output rb Hrb _ _ _ _ _ HR7 E5). reflexivity.
Qed.
End Sim.
