(** How many hash outputs lead to given challenges (C62). *)
From Coq Require Import Arith NArith ZArith List Bool Lia Permutation.
From Verif Require Import Prelude FieldModel FieldApi Points FieldSpec Instances HashModel TreeModel AesShares BanquetModel ListSum BanquetHash BanquetPure BanquetApi ChallengeFacts HashFacts ShareFacts Unbias SignFacts FreeSpec.
Import ListNotations.

Lemma app_len_inj {A} (a a' b b' : list A) : length a = length a' -> a ++ b = a' ++ b' -> a = a' /\ b = b'.
Proof.
  revert a'. induction a as [|x a IH]; intros [|y a'] L E; try discriminate L; [split; [reflexivity|exact E]|].
  cbn [app] in E. injection E as -> E. injection L as L. destruct (IH a' L E) as [-> ->]. split; reflexivity.
Qed.
(** *** one window per field element, 256^w / 2^k windows per party *)
Lemma filter_one {A} (P : A -> bool) a l : NoDup l -> In a l -> P a = true -> (forall b, In b l -> P b = true -> b = a) -> length (filter P l) = 1.
Proof.
  intros ND Ha Pa U. induction ND as [|x l Hx ND IH]; [destruct Ha|]. cbn [filter]. destruct Ha as [->|Ha].
  - rewrite Pa. cbn [length]. f_equal. assert (E : filter P l = []); [|rewrite E; reflexivity].
    destruct (filter P l) as [|y r] eqn:E; [reflexivity|]. assert (Hy : In y (filter P l)) by (rewrite E; left; reflexivity). apply filter_In in Hy.
    exfalso. apply Hx. rewrite <- (U y (or_intror (proj1 Hy)) (proj2 Hy)). apply Hy.
  - destruct (P x) eqn:Px; [exfalso; apply Hx; rewrite (U x (or_introl eq_refl) Px); exact Ha|]. apply IH; [exact Ha|]. intros b Hb. apply U. right. exact Hb.
Qed.
Lemma fibre_elem w b : (b < 256 ^ N.of_nat w)%N -> fibre _ _ N.eq_dec (all_strings w) le_word b = 1.
Proof.
  intros Hb. unfold fibre. apply (filter_one _ (le_bytes w b)).
  - apply NoDup_tuples, NoDup_all_bytes.
  - apply in_all_strings. split; [apply le_bytes_length|apply le_bytes_is_bytes].
  - apply eqB_true. apply le_word_bytes. exact Hb.
  - intros s Hs E. apply in_all_strings in Hs. apply eqB_true in E. rewrite <- E, <- (proj1 Hs). symmetry. apply le_bytes_word. apply Hs.
Qed.
Lemma count_mod M m c : m < M -> length (filter (fun v => v mod M =? m) (seq 0 (c * M))) = c.
Proof.
  intros Hm. induction c as [|c IH]; [reflexivity|]. cbn [Nat.mul]. rewrite Nat.add_comm, seq_app, filter_app, app_length, IH. cbn [Nat.add].
  assert (O : length (filter (fun v => v mod M =? m) (seq (c * M) M)) = 1); [|lia].
  apply (filter_one _ (c * M + m)); [apply seq_NoDup|apply in_seq; lia| |].
  - apply Nat.eqb_eq. rewrite Nat.add_comm, Nat.mod_add by lia. apply Nat.mod_small. exact Hm.
  - intros v Hv E. apply in_seq in Hv. apply Nat.eqb_eq in E. replace v with (v - c * M + c * M) in E by lia. rewrite Nat.mod_add in E by lia. rewrite Nat.mod_small in E by lia. lia.
Qed.
Lemma words_perm w : Permutation (map (fun s => N.to_nat (le_word s)) (all_strings w)) (seq 0 (256 ^ w)).
Proof.
  assert (P : N.to_nat (256 ^ N.of_nat w) = 256 ^ w) by (rewrite N2Nat.inj_pow, Nat2N.id; reflexivity).
  apply NoDup_Permutation; [|apply seq_NoDup|].
  - assert (ND : NoDup (all_strings w)) by (apply NoDup_tuples, NoDup_all_bytes). assert (IN : forall s, In s (all_strings w) -> str w s) by (intros s; apply in_all_strings).
    revert ND IN. generalize (all_strings w). induction 1 as [|s l Hs Hl IH]; intros IN; cbn [map]; [constructor|]. constructor; [|apply IH; intros u Hu; apply IN; right; exact Hu].
    intros Q. apply in_map_iff in Q. destruct Q as (u & E & Hu). apply N2Nat.inj in E. apply Hs. replace s with u; [exact Hu|].
    destruct (IN s (or_introl eq_refl)) as [L1 F1]. destruct (IN u (or_intror Hu)) as [L2 F2]. rewrite <- (le_bytes_word u F2), <- (le_bytes_word s F1), E, L1, L2. reflexivity.
  - intros v. rewrite in_map_iff, in_seq. split.
    + intros (s & <- & Hs). apply in_all_strings in Hs. pose proof (le_word_lt s (proj2 Hs)) as L. rewrite (proj1 Hs) in L. lia.
    + intros Hv. exists (le_bytes w (N.of_nat v)). split; [rewrite le_word_bytes by lia; apply Nat2N.id|]. apply in_all_strings. split; [apply le_bytes_length|apply le_bytes_is_bytes].
Qed.
Lemma filter_perm {A} (P : A -> bool) l l' : Permutation l l' -> length (filter P l) = length (filter P l').
Proof. induction 1; cbn [filter]; [reflexivity|destruct (P x); cbn [length]; lia|destruct (P x), (P y); reflexivity|congruence]. Qed.
Lemma filter_map {A B} (f : A -> B) (P : B -> bool) l : length (filter P (map f l)) = length (filter (fun a => P (f a)) l).
Proof. induction l as [|a l IH]; [reflexivity|]. cbn [map filter]. destruct (P (f a)); cbn [length]; lia. Qed.
(** the party a window stands for, [k] the number of bits that are kept *)
Definition party_of (k : nat) (s : bytes) : nat := N.to_nat (le_word s mod 2 ^ N.of_nat k).
Lemma party_of_mod k s : party_of k s = N.to_nat (le_word s) mod 2 ^ k.
Proof.
  unfold party_of. rewrite N2Nat.inj_mod. f_equal. rewrite N2Nat.inj_pow, Nat2N.id. reflexivity.
Qed.
Lemma fibre_party w k m : k <= 8 * w -> m < 2 ^ k -> fibre _ _ Nat.eq_dec (all_strings w) (party_of k) m = 2 ^ (8 * w - k).
Proof.
  intros Hk Hm. unfold fibre. rewrite (filter_same _ (fun s => (fun v => v mod 2 ^ k =? m) (N.to_nat (le_word s)))).
  - rewrite <- (filter_map (fun s => N.to_nat (le_word s)) (fun v => v mod 2 ^ k =? m)). rewrite (filter_perm _ _ _ (words_perm w)).
    replace (256 ^ w) with (2 ^ (8 * w - k) * 2 ^ k); [apply count_mod; exact Hm|]. rewrite <- Nat.pow_add_r. change 256 with (2 ^ 8). rewrite <- Nat.pow_mul_r. f_equal. lia.
  - intros s. apply eq_true_iff_eq. rewrite eqB_true, Nat.eqb_eq, party_of_mod. reflexivity.
Qed.

(** *** the expansions draw from the windows of the hash output *)
Lemma window_stream H v m w q k : k < q -> window w (stream H v m 0 (q * w)) k = stream H v m (k * w) w.
Proof.
  intros Hk. unfold window, slice, stream. assert (E : k * w + w <= q * w) by nia.
  replace (seq 0 (q * w)) with (seq 0 (k * w) ++ seq (k * w) w ++ seq (k * w + w) (q * w - (k * w + w))).
  - rewrite map_app, skipn_app, map_length, seq_length, Nat.sub_diag. rewrite skipn_all2 by (rewrite map_length, seq_length; lia). cbn [skipn app].
    rewrite map_app, firstn_app, map_length, seq_length, Nat.sub_diag. cbn [firstn]. rewrite app_nil_r. apply firstn_all2. rewrite map_length, seq_length. lia.
  - change (seq (k * w) w) with (seq (0 + k * w) w). rewrite app_assoc, <- seq_app. cbn [Nat.add]. change (seq (k * w + w)) with (seq (0 + (k * w + w))). rewrite <- seq_app. f_equal. lia.
Qed.

Section Parties.
Variables (H : oracle) (I : instance).
Hypothesis HN1 : 1 <= num_parties I.
Hypothesis HN2 : (N.of_nat (num_parties I) < 65536)%N.
Variables (v : bool) (m : bytes).
Notation sz := (squeeze_size I).
Notation good := (fun p => p <? num_parties I).
Notation cand := (cand_at H I v m).
Lemma party_step f hi k : sample_party H I (S f) hi (mkCtx v m (Some (k * sz))) =
  if cand k <? num_parties I then Ok (cand k, mkCtx v m (Some ((k + 1) * sz))) else sample_party H I f (N.of_nat (cand k) / 256)%N (mkCtx v m (Some ((k + 1) * sz))).
Proof.
  cbn [sample_party hash_squeeze h_v h_in h_off].
  assert (EX : N.land (if sz =? 2 then le_word (stream H v m (k * sz) sz) else (le_word (stream H v m (k * sz) sz) + 256 * hi)%N) (party_mask I) =
     (le_word (stream H v m (k * sz) sz) mod 2 ^ N.of_nat (Nat.log2_up (num_parties I)))%N).
  { destruct (squeeze_size_cases I HN1) as [[-> _]|[S1 _]]; [cbn [Nat.eqb]; apply (land_mask I HN1 HN2)|].
    rewrite S1. cbn [Nat.eqb]. rewrite (land_byte I HN1) by exact S1. apply (land_mask I HN1 HN2). }
  rewrite EX. replace (k * sz + sz) with ((k + 1) * sz) by lia. unfold cand_at. set (z := (_ mod _)%N). rewrite N2Nat.id.
  destruct (N.leb_spec (N.of_nat (num_parties I)) z), (Nat.ltb_spec (N.to_nat z) (num_parties I)); try lia; reflexivity.
Qed.
Lemma party_drawn r : forall fuel hi k p rest, r <= fuel -> filter good (map cand (seq k r)) = p :: rest ->
  exists a, a <= r /\ sample_party H I fuel hi (mkCtx v m (Some (k * sz))) = Ok (p, mkCtx v m (Some ((k + a) * sz))) /\ filter good (map cand (seq (k + a) (r - a))) = rest.
Proof.
  induction r as [|r IH]; intros fuel hi k p rest Hf E; [discriminate E|]. destruct fuel as [|f]; [lia|]. rewrite party_step. cbn [seq map filter] in E.
  destruct (cand k <? num_parties I) eqn:G.
  - injection E as <- <-. exists 1. split; [lia|]. split; [reflexivity|]. rewrite Nat.add_1_r. cbn [Nat.sub]. rewrite Nat.sub_0_r. reflexivity.
  - destruct (IH f (N.of_nat (cand k) / 256)%N (S k) p rest ltac:(lia) E) as (a & Ha & HS & F). exists (S a). split; [lia|]. rewrite Nat.add_1_r, HS. split; [do 4 f_equal; lia|].
    replace (k + S a) with (S k + a) by lia. exact F.
Qed.
Lemma parties_drawn fuel garb n : forall e k r, r <= fuel -> length (drawn good n (map cand (seq k r))) = n ->
  sample_parties H I fuel garb e n (mkCtx v m (Some (k * sz))) = Ok (drawn good n (map cand (seq k r))).
Proof.
  induction n as [|n IH]; intros e k r Hr L; [reflexivity|]. unfold drawn in *. cbn [sample_parties].
  destruct (filter good (map cand (seq k r))) as [|p rest] eqn:E; [discriminate L|]. cbn [firstn length] in *.
  destruct (party_drawn r fuel (garb e mod 256)%N k p rest Hr E) as (a & Ha & HS & F). rewrite HS. cbn [bind]. rewrite (IH (Datatypes.S e) (k + a) (r - a)); [cbn [bind]; rewrite F; reflexivity|lia|rewrite F; lia].
Qed.
End Parties.

(** the candidates in a string of q windows *)
Definition party_cands (I : instance) (q : nat) (s : bytes) : list nat :=
  let w := if 256 <? num_parties I then 2 else 1 in map (fun k => party_of (Nat.log2_up (num_parties I)) (window w s k)) (seq 0 q).
Definition point_cands (I : instance) (q : nat) (s : bytes) : list N := map (fun k => le_word (window (lambda I) s k)) (seq 0 q).

Lemma phase_3_drawn H I fuel garb h3 q : 1 <= num_parties I -> (N.of_nat (num_parties I) < 65536)%N -> q <= fuel ->
  let s := stream H (digest_size I =? 32) h3 0 (q * (if 256 <? num_parties I then 2 else 1)) in
  let ms := drawn (fun p => p <? num_parties I) (num_rounds I) (party_cands I q s) in
  length ms = num_rounds I -> phase_3_expand H I fuel garb h3 = Ok ms.
Proof.
  intros H1 H2 Hq s ms. assert (E : party_cands I q s = map (cand_at H I (digest_size I =? 32) h3) (seq 0 q)).
  { unfold party_cands. apply map_ext_in. intros k Hk. apply in_seq in Hk. unfold s. rewrite window_stream by lia. reflexivity. }
  unfold ms. rewrite E. intros L. unfold phase_3_expand. change (hash_final (hash_update (hash_init (digest_size I)) h3)) with (mkCtx (digest_size I =? 32) h3 (Some (0 * squeeze_size I))).
  apply (parties_drawn H I H1 H2); assumption.
Qed.
Lemma party_count I q : 1 <= num_parties I -> (N.of_nat (num_parties I) < 65536)%N -> exists K, (num_rounds I <= q -> 1 <= K) /\
  forall ms, length ms = num_rounds I -> Forall (fun p => p < num_parties I) ms -> exists l, NoDup l /\
  (forall s, In s l <-> str (q * (if 256 <? num_parties I then 2 else 1)) s /\ drawn (fun p => p <? num_parties I) (num_rounds I) (party_cands I q s) = ms) /\ length l = K.
Proof.
  intros H1 H2. set (w := if 256 <? num_parties I then 2 else 1). set (k := Nat.log2_up (num_parties I)).
  assert (Hk : k <= 8 * w).
  { unfold k, w. destruct (Nat.ltb_spec 256 (num_parties I)); [exact (log_le16 I H1 H2)|]. apply Nat.log2_up_le_pow2; [lia|]. change (2 ^ (8 * 1)) with 256. assumption. }
  assert (Hn : num_parties I <= 2 ^ k) by (apply Nat.log2_up_le_pow2; [lia|apply le_n]).
  exists (ways _ _ (all_strings w) (party_of k) (fun p => p <? num_parties I) (2 ^ (8 * w - k)) (num_rounds I) q). split.
  - intros Hq. apply ways_pos; [pose proof (Nat.pow_nonzero 2 (8 * w - k)); lia| |exact Hq].
    intros Q. pose proof (length_all_strings w) as L. rewrite Q in L. cbn [length] in L. symmetry in L. revert L. apply Nat.pow_nonzero. discriminate.
  - intros ms L F. rewrite <- L.
    destruct (count_strings nat Nat.eq_dec w (party_of k) (fun p => p <? num_parties I) (2 ^ (8 * w - k)) (fun p => p < num_parties I)
      ltac:(intros b Hb; apply fibre_party; [exact Hk|exact (Nat.lt_le_trans _ _ _ Hb Hn)]) ltac:(intros b Hb; apply Nat.ltb_lt; exact Hb) q ms F) as (l & ND & IN & C).
    exists l. split; [exact ND|]. split; [exact IN|exact C].
Qed.
(** in the parameter sets, exactly (256 / N)^T of the 256^T strings of T bytes *)
Lemma party_count_pow2 I j : num_parties I = 2 ^ j -> j <= 8 ->
  forall ms, length ms = num_rounds I -> Forall (fun p => p < num_parties I) ms -> exists l, NoDup l /\
  (forall s, In s l <-> str (num_rounds I) s /\ map (fun b => N.to_nat b mod num_parties I) s = ms) /\ length l = (256 / num_parties I) ^ num_rounds I.
Proof.
  intros EN Hj ms L F. assert (B : 2 ^ j <= 256) by (change 256 with (2 ^ 8); apply Nat.pow_le_mono_r; lia).
  assert (LG : Nat.log2_up (num_parties I) = j) by (rewrite EN; apply Nat.log2_up_pow2; lia).
  assert (G : forall s, party_of j s <? num_parties I = true) by (intros s; apply Nat.ltb_lt; rewrite party_of_mod, EN; apply Nat.mod_upper_bound, Nat.pow_nonzero; discriminate).
  destruct (count_strings nat Nat.eq_dec 1 (party_of j) (fun p => p <? num_parties I) (2 ^ (8 - j)) (fun p => p < num_parties I)
      ltac:(intros b Hb; rewrite fibre_party; [reflexivity|lia|rewrite <- EN; exact Hb]) ltac:(intros b Hb; apply Nat.ltb_lt; exact Hb) (num_rounds I) ms F) as (l & ND & IN & C).
  exists l. split; [exact ND|]. split.
  - intros s. rewrite IN, Nat.mul_1_r, L. assert (E : str (num_rounds I) s -> drawn (fun p => p <? num_parties I) (num_rounds I) (map (fun k => party_of j (window 1 s k)) (seq 0 (num_rounds I))) = map (fun b => N.to_nat b mod num_parties I) s).
    { intros [Ls _]. unfold drawn. rewrite filter_true by (apply Forall_map, Forall_forall; intros; apply G). rewrite firstn_all2 by (rewrite map_length, seq_length; lia).
      etransitivity; [|apply (f_equal (map (fun b => N.to_nat b mod num_parties I))); apply (concat_windows 1 (num_rounds I) s); lia]. rewrite concat_map, map_map. clear - EN Ls.
      assert (Q : forall q, q <= num_rounds I -> map (fun k => party_of j (window 1 s k)) (seq 0 q) = concat (map (fun x => map (fun b => N.to_nat b mod num_parties I) (window 1 s x)) (seq 0 q))); [|apply Q; lia].
      induction q as [|q IH]; intros Hq; [reflexivity|]. rewrite seq_S, !map_app, concat_app, IH by lia. f_equal. cbn [Nat.add map concat app]. rewrite app_nil_r.
      unfold window, slice. rewrite Nat.mul_1_r. destruct (skipn q s) as [|b r] eqn:E; [apply (f_equal (@length N)) in E; rewrite skipn_length in E; cbn in E; lia|].
      cbn [firstn map]. rewrite party_of_mod, EN. cbn [le_word]. rewrite N.mul_0_r, N.add_0_r. reflexivity. }
    split; intros [A D]; split; try exact A; [rewrite <- (E A)|rewrite (E A)]; exact D.
  - rewrite C, L. rewrite ways_exact.
    + f_equal. rewrite EN. change 256 with (2 ^ 8). replace 8 with ((8 - j) + j) at 2 by lia. rewrite Nat.pow_add_r, Nat.div_mul; [reflexivity|]. apply Nat.pow_nonzero. discriminate.
    + unfold bad. rewrite (filter_same _ (fun _ => false)); [|intros s; rewrite G; reflexivity]. generalize (all_strings 1). intros l'. induction l'; auto.
Qed.

(** *** field elements *)
Section Field.
Variables (H : oracle) (I : instance) (c : fctx).
Hypothesis HI : init_extension_field (lambda I) = Ok c.
Variables (v : bool) (m : bytes).
Variable forb : list N.
Hypothesis Lf : length forb = m2 I.
Notation good := (fun x => negb (existsb (N.eqb x) forb)).
Notation cand := (relt H I v m).
Lemma point_step f k : sample_R H I c (S f) forb (mkCtx v m (Some (k * lambda I))) =
  if good (cand k) then Ok (cand k, mkCtx v m (Some ((k + 1) * lambda I))) else sample_R H I c f forb (mkCtx v m (Some ((k + 1) * lambda I))).
Proof.
  cbn [sample_R hash_squeeze h_v h_in h_off]. rewrite (squeeze_elem_eq H I c HI). cbn [bind].
  assert (RF : read forb 0 (m2 I) = Ok forb) by (rewrite read_ok by lia; unfold slice; cbn [skipn]; rewrite <- Lf, firstn_all; reflexivity).
  rewrite RF. cbn [bind]. replace (k * lambda I + lambda I) with ((k + 1) * lambda I) by lia. destruct (existsb (N.eqb (cand k)) forb); reflexivity.
Qed.
Lemma point_drawn r : forall fuel k p rest, r <= fuel -> filter good (map cand (seq k r)) = p :: rest ->
  exists a, a <= r /\ sample_R H I c fuel forb (mkCtx v m (Some (k * lambda I))) = Ok (p, mkCtx v m (Some ((k + a) * lambda I))) /\ filter good (map cand (seq (k + a) (r - a))) = rest.
Proof.
  induction r as [|r IH]; intros fuel k p rest Hf E; [discriminate E|]. destruct fuel as [|f]; [lia|]. rewrite point_step. cbn [seq map filter] in E.
  destruct (good (cand k)) eqn:G.
  - injection E as <- <-. exists 1. split; [lia|]. split; [reflexivity|]. rewrite Nat.add_1_r. cbn [Nat.sub]. rewrite Nat.sub_0_r. reflexivity.
  - destruct (IH f (S k) p rest ltac:(lia) E) as (a & Ha & HS & F). exists (S a). split; [lia|]. rewrite Nat.add_1_r, HS. split; [do 4 f_equal; lia|].
    replace (k + S a) with (S k + a) by lia. exact F.
Qed.
Lemma points_drawn fuel n : forall k r, r <= fuel -> length (drawn good n (map cand (seq k r))) = n ->
  sample_Rs H I c fuel forb n (mkCtx v m (Some (k * lambda I))) = Ok (drawn good n (map cand (seq k r))).
Proof.
  induction n as [|n IH]; intros k r Hr L; [reflexivity|]. unfold drawn in *. cbn [sample_Rs].
  destruct (filter good (map cand (seq k r))) as [|p rest] eqn:E; [discriminate L|]. cbn [firstn length] in *.
  destruct (point_drawn r fuel k p rest Hr E) as (a & Ha & HS & F). rewrite HS. cbn [bind]. rewrite (IH (k + a) (r - a)); [cbn [bind]; rewrite F; reflexivity|lia|rewrite F; lia].
Qed.
End Field.
Definition allowed_point (I : instance) (c : fctx) (x : N) : bool := negb (existsb (N.eqb x) (get_first_n_field_elements c (m2 I))).
Lemma phase_2_drawn H I c fuel h2 q : proper I -> init_extension_field (lambda I) = Ok c -> q <= fuel ->
  let s := stream H (digest_size I =? 32) h2 0 (q * lambda I) in
  let Rs := drawn (allowed_point I c) (num_rounds I) (point_cands I q s) in
  length Rs = num_rounds I -> phase_2_expand H I c fuel h2 (get_first_n_field_elements c (m2 I)) = Ok Rs.
Proof.
  intros HB Hc Hq s Rs. destruct (proper_any I HB) as [c' OK].
  assert (c' = c) by (pose proof (io_field _ _ _ OK) as X; rewrite Hc in X; injection X as <-; reflexivity). subst c'. assert (E : point_cands I q s = map (relt H I (digest_size I =? 32) h2) (seq 0 q)).
  { unfold point_cands. apply map_ext_in. intros k Hk. apply in_seq in Hk. unfold s. rewrite window_stream by lia. reflexivity. }
  unfold Rs. rewrite E. intros L. unfold phase_2_expand. change (hash_final (hash_update (hash_init (digest_size I)) h2)) with (mkCtx (digest_size I =? 32) h2 (Some (0 * lambda I))).
  apply (points_drawn H I c Hc); [apply (api_points _ _ Hc); apply (points_ok I c _ OK); lia|exact Hq|exact L].
Qed.
Lemma point_count I c q : exists K, (num_rounds I <= q -> 1 <= K) /\
  forall Rs, length Rs = num_rounds I -> Forall (fun R => (R < 256 ^ N.of_nat (lambda I))%N /\ ~ In R (get_first_n_field_elements c (m2 I))) Rs -> exists l, NoDup l /\
  (forall s, In s l <-> str (q * lambda I) s /\ drawn (allowed_point I c) (num_rounds I) (point_cands I q s) = Rs) /\ length l = K.
Proof.
  exists (ways _ _ (all_strings (lambda I)) le_word (allowed_point I c) 1 (num_rounds I) q). split.
  - intros Hq. apply ways_pos; [lia| |exact Hq].
    intros Q. pose proof (length_all_strings (lambda I)) as L. rewrite Q in L. cbn [length] in L. symmetry in L. revert L. apply Nat.pow_nonzero. discriminate.
  - intros Rs L F. rewrite <- L.
    destruct (count_strings N N.eq_dec (lambda I) le_word (allowed_point I c) 1 (fun R => (R < 256 ^ N.of_nat (lambda I))%N /\ ~ In R (get_first_n_field_elements c (m2 I)))
      ltac:(intros b Hb; apply fibre_elem; apply Hb)
      ltac:(intros b Hb; unfold allowed_point; apply negb_true_iff, not_true_iff_false; intros Q; apply existsb_exists in Q; destruct Q as (x & Hx & Ex); apply N.eqb_eq in Ex; subst x; apply (proj2 Hb); exact Hx) q Rs F) as (l & ND & IN & C).
    exists l. split; [exact ND|]. split; [exact IN|exact C].
Qed.

(** *** in the form of the property theorems *)
Lemma party_pow2_api I j : num_parties I = 2 ^ j -> j <= 8 -> forall ms, length ms = num_rounds I -> Forall (fun p => p < num_parties I) ms ->
  exists l, NoDup l /\ Forall (str (num_rounds I)) l /\ length l = (256 / num_parties I) ^ num_rounds I /\
  forall H fuel garb h3, 1 <= fuel -> (phase_3_expand H I fuel garb h3 = Ok ms <-> In (stream H (digest_size I =? 32) h3 0 (num_rounds I)) l).
Proof.
  intros EN Hj ms L F. destruct (party_count_pow2 I j EN Hj ms L F) as (l & ND & IN & C). exists l. split; [exact ND|].
  split; [apply Forall_forall; intros s Hs; apply IN; exact Hs|]. split; [exact C|]. intros H fuel garb h3 Hf.
  rewrite (party_challenges_pow2 H I j fuel garb h3 EN Hj Hf), IN.
  assert (E : map (fun b => N.to_nat b mod num_parties I) (stream H (digest_size I =? 32) h3 0 (num_rounds I)) =
    map (fun e => N.to_nat (H (digest_size I =? 32)%nat h3 e mod 256 mod N.of_nat (num_parties I))%N) (seq 0 (num_rounds I))).
  { unfold stream. rewrite map_map. apply map_ext. intros e. symmetry. etransitivity; [apply N2Nat.inj_mod|]. rewrite Nat2N.id. reflexivity. }
  rewrite E. split; [intros X; injection X as ->; split; [split; [apply stream_length|apply stream_bytes]|reflexivity]|intros [_ ->]; reflexivity].
Qed.
Lemma regular_small I : regular I -> exists j, num_parties I = 2 ^ j /\ j <= 8.
Proof. exact (regular_pow2 I). Qed.
Lemma party_api I : regular I -> forall ms, length ms = num_rounds I -> Forall (fun p => p < num_parties I) ms ->
  exists l, NoDup l /\ Forall (str (num_rounds I)) l /\ length l = (256 / num_parties I) ^ num_rounds I /\
  forall H fuel garb h3, 1 <= fuel -> (phase_3_expand H I fuel garb h3 = Ok ms <-> In (stream H (digest_size I =? 32) h3 0 (num_rounds I)) l).
Proof. intros HB. destruct (regular_small I HB) as (j & EN & Hj). exact (party_pow2_api I j EN Hj). Qed.

Lemma nth_error_concat_rows {A} (w : nat) : forall (rs : list (list A)) e j, Forall (fun r => length r = w) rs -> j < w -> nth_error (concat rs) (e * w + j) = match nth_error rs e with Some r => nth_error r j | None => None end.
Proof.
  induction rs as [|r rs IH]; intros e j F Hj; [destruct e; [destruct j; reflexivity|]; cbn [concat nth_error]; destruct (S e * w + j); reflexivity|].
  inversion_clear F as [|? ? L F']. cbn [concat]. destruct e as [|e].
  - cbn [Nat.mul Nat.add nth_error]. apply nth_error_app1. lia.
  - rewrite nth_error_app2 by (cbn [Nat.mul]; lia). cbn [nth_error]. rewrite <- (IH e j F' Hj). f_equal. cbn [Nat.mul]. lia.
Qed.
Lemma coeff_api I c : init_extension_field (lambda I) = Ok c -> forall rss, length rss = num_rounds I ->
  Forall (fun rs => length rs = m1 I /\ Forall (fun r => (r < 256 ^ N.of_nat (lambda I))%N) rs) rss ->
  exists s, str (num_rounds I * m1 I * lambda I) s /\
  forall H h1, phase_1_expand H I c h1 = Ok rss <-> stream H (digest_size I =? 32) h1 0 (num_rounds I * m1 I * lambda I) = s.
Proof.
  intros HI rss L F. exists (concat (map (le_bytes (lambda I)) (concat rss))).
  assert (LR : Forall (fun r => length r = m1 I) rss) by (revert F; apply Forall_impl; intros r Hr; apply Hr).
  assert (FC : Forall (fun r => (r < 256 ^ N.of_nat (lambda I))%N) (concat rss)).
  { clear - F. induction F as [|r l Hr F IH]; [constructor|]. cbn [concat]. apply Forall_app. split; [apply Hr|exact IH]. }
  assert (LC : length (concat rss) = num_rounds I * m1 I).
  { rewrite <- L. clear - LR. induction LR as [|r l Hr F IH]; [reflexivity|]. cbn [concat length]. rewrite app_length, IH, Hr. reflexivity. }
  assert (SS : str (num_rounds I * m1 I * lambda I) (concat (map (le_bytes (lambda I)) (concat rss)))).
  { rewrite <- LC. clear. induction (concat rss) as [|x l IH]; [split; [reflexivity|constructor]|]. cbn [map concat length]. destruct IH as [A B]. split.
    - rewrite app_length, le_bytes_length, A. reflexivity.
    - apply Forall_app. split; [apply le_bytes_is_bytes|exact B]. }
  split; [exact SS|]. intros H h1. set (v := digest_size I =? 32). rewrite (phase_1_eq H I c h1 HI). fold v.
  set (rows := map _ (seq 0 (num_rounds I))).
  assert (RC : concat rows = map (fun k => le_word (window (lambda I) (stream H v h1 0 (num_rounds I * m1 I * lambda I)) k)) (seq 0 (num_rounds I * m1 I))).
  { unfold rows. generalize (num_rounds I) as T. intros T. enough (G : forall n, n <= T -> concat (map (fun e => map (fun j => from_bytes (stream H v h1 ((e * m1 I + j) * lambda I) (lambda I))) (seq 0 (m1 I))) (seq 0 n)) =
      map (fun k => le_word (window (lambda I) (stream H v h1 0 (T * m1 I * lambda I)) k)) (seq 0 (n * m1 I))) by (apply G; lia).
    induction n as [|n IH]; intros Hn; [reflexivity|]. rewrite seq_S, map_app, concat_app, IH by lia. cbn [Nat.add map concat]. rewrite app_nil_r. cbn [Nat.mul]. rewrite (Nat.add_comm (m1 I)), seq_app, map_app. f_equal. cbn [Nat.add].
    transitivity (map (fun k => from_bytes (stream H v h1 (k * lambda I) (lambda I))) (seq (n * m1 I) (m1 I))).
    - generalize (n * m1 I). generalize (m1 I). clear. induction n as [|n IH]; intros k; [reflexivity|]. cbn [seq map]. rewrite Nat.add_0_r. f_equal. rewrite <- IH, <- seq_shift, map_map. apply map_ext. intros j. do 2 f_equal. lia.
    - apply map_ext_in. intros k Hk. apply in_seq in Hk. rewrite window_stream by nia. reflexivity. }
  assert (EC : rows = rss <-> concat rows = concat rss).
  { split; [intros ->; reflexivity|]. assert (LR' : Forall (fun r => length r = m1 I) rows) by (apply Forall_map, Forall_forall; intros e _; rewrite map_length, seq_length; reflexivity).
    assert (L' : length rows = length rss) by (unfold rows; rewrite map_length, seq_length, L; reflexivity). revert LR LR' L'. clear. revert rss. induction rows as [|r rows IH]; intros [|r' rss] F F' LL E; try discriminate LL; [reflexivity|].
    inversion_clear F; inversion_clear F'. cbn [concat] in E. apply app_len_inj in E; [|congruence]. destruct E as [-> E]. f_equal. apply IH; try assumption. injection LL as LL. exact LL. }
  assert (X : concat rows = concat rss <-> stream H v h1 0 (num_rounds I * m1 I * lambda I) = concat (map (le_bytes (lambda I)) (concat rss))).
  { set (st := stream H v h1 0 (num_rounds I * m1 I * lambda I)) in *. assert (S1 : str (num_rounds I * m1 I * lambda I) st) by (split; [apply stream_length|apply stream_bytes]).
    rewrite RC. split.
    - intros E. rewrite <- E, map_map. etransitivity; [symmetry; apply (concat_windows (lambda I) (num_rounds I * m1 I) st); apply S1|]. f_equal. apply map_ext_in. intros k Hk. apply in_seq in Hk.
      destruct (window_str (lambda I) (num_rounds I * m1 I) st k S1 ltac:(lia)) as [WL WF]. symmetry. etransitivity; [|exact (le_bytes_word _ WF)]. rewrite WL. reflexivity.
    - intros E. rewrite E. rewrite <- (map_map (window (lambda I) (concat (map (le_bytes (lambda I)) (concat rss)))) le_word). rewrite <- LC, <- (map_length (le_bytes (lambda I)) (concat rss)).
      rewrite windows_concat by (apply Forall_map, Forall_forall; intros x _; apply le_bytes_length). rewrite map_map. transitivity (map (fun x => x) (concat rss)); [|apply map_id]. apply map_ext_in. intros x Hx. apply le_word_bytes. exact (proj1 (Forall_forall _ _) FC x Hx). }
  rewrite <- X, <- EC. split; [intros Y; injection Y; auto|intros ->; reflexivity].
Qed.

(** ... and in signatures *)
Lemma sign_parties I : regular I -> forall ms, length ms = num_rounds I -> Forall (fun p => p < num_parties I) ms ->
  exists l, NoDup l /\ Forall (str (num_rounds I)) l /\ length l = (256 / num_parties I) ^ num_rounds I /\
  forall H kf r kp fuel garb st st' msg sig, rng_bytes r -> keygen kf I r = Ok kp -> sign H fuel garb st I kp msg = (st', Ok sig) ->
  (map (fun p => snd (p_reveal p)) (s_proofs sig) = ms <-> In (stream H (digest_size I =? 32) (s_h3 sig) 0 (num_rounds I)) l).
Proof.
  intros HB ms L F. destruct (party_api I HB ms L F) as (l & ND & S & C & IN). exists l. split; [exact ND|]. split; [exact S|]. split; [exact C|].
  intros H kf r kp fuel garb st st' msg sig HR EK ES. destruct (key_cases I kf r kp HB HR EK) as (c & key & pt & ct & OK & -> & Hk & Hp & Hct).
  destruct (sign_shape H I c (nk_of I) OK key pt ct Hk Hp Hct fuel garb st msg sig st' ES) as (_ & _ & M).
  rewrite <- (IN H (max 1 fuel) garb (s_h3 sig) ltac:(lia)), (M (max 1 fuel) garb ltac:(lia)). split; [intros ->; reflexivity|intros X; injection X; auto].
Qed.
