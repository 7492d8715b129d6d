(** The four-way sponge is four scalar sponges in lock step, whatever happens (also when it overruns or never ends). *)
From Coq Require Import Arith NArith List Bool Lia.
From Verif Require Import Prelude SpongeModel SpongeSpec HashModel SpongeFacts SpongeApi.
Import ListNotations.

Section Perm.
Variable f : bytes -> bytes.
Hypothesis f_len : forall st : bytes, length st = 200 -> length (f st) = 200.

(** four byte strings of the same length *)
Definition quad (L : nat) (l : list bytes) : Prop := length l = 4 /\ Forall (fun d => length d = L) l.
Notation at_ i l := (nth i l ([] : bytes)).

Lemma quad_nth L l i : quad L l -> i < 4 -> length (at_ i l) = L.
Proof. intros [A B] I. rewrite Forall_forall in B. apply B. apply nth_In. lia. Qed.
Lemma quad_len4 L l : quad L l -> len4 l = L.
Proof. intros Q. destruct l as [|a l]; [destruct Q; discriminate|]. exact (quad_nth L (a :: l) 0 Q ltac:(lia)). Qed.
Lemma quad_map L L' l g : quad L l -> (forall d, length d = L -> length (g d) = L') -> quad L' (map g l).
Proof.
  intros [A B] G. split. { rewrite map_length. assumption. }
  apply Forall_map. eapply Forall_impl; [|exact B]. auto.
Qed.
Lemma nth_map g l i : length l = 4 -> i < 4 -> at_ i (map g l) = g (at_ i l).
Proof. intros A I. rewrite (nth_indep _ [] (g [])) by (rewrite map_length; lia). apply map_nth. Qed.
Lemma nth_zip (g : bytes * bytes -> bytes) (a b : list bytes) i : length a = 4 -> length b = 4 -> i < 4 -> at_ i (map g (combine a b)) = g (at_ i a, at_ i b).
Proof.
  intros A B I. rewrite (nth_indep _ [] (g ([], []))) by (rewrite map_length, combine_length; lia).
  rewrite map_nth. f_equal. exact (combine_nth a b i [] [] (eq_trans A (eq_sym B))).
Qed.
Lemma quad_zip L L' L'' (g : bytes * bytes -> bytes) (a b : list bytes) : quad L a -> quad L' b ->
  (forall x y, length x = L -> length y = L' -> length (g (x, y)) = L'') -> quad L'' (map g (combine a b)).
Proof.
  intros [A A'] [B B'] G. split. { rewrite map_length, combine_length. lia. }
  apply Forall_forall. intros z Hz. apply in_map_iff in Hz as [[x y] [E Hxy]]. subst z.
  rewrite Forall_forall in A', B'. apply G; [apply A' | apply B'].
  - exact (in_combine_l _ _ _ _ Hxy).
  - exact (in_combine_r _ _ _ _ Hxy).
Qed.

(** the operations of the layer below *)
Lemma mapM_ub {A B} (g : A -> res B) l u : l <> [] -> (forall a, In a l -> g a = UB u) -> mapM g l = UB u.
Proof. destruct l as [|a l]; [contradiction|]. intros _ H. cbn [mapM]. rewrite (H a) by (left; reflexivity). reflexivity. Qed.
Lemma add4 sts ds L off len : quad 200 sts -> quad L ds ->
  (exists sts', add_bytes4 sts ds off len = Ok sts' /\ quad 200 sts' /\ forall i, i < 4 -> add_bytes (at_ i sts) (at_ i ds) off len = Ok (at_ i sts')) \/
  (add_bytes4 sts ds off len = UB OutOfBounds /\ forall i, i < 4 -> add_bytes (at_ i sts) (at_ i ds) off len = UB OutOfBounds).
Proof.
  intros QS QD. unfold add_bytes4.
  destruct (N.leb (N.of_nat off + len) (N.of_nat 200) && N.leb len (N.of_nat L)) eqn:C.
  - left. exists (map (fun sd => xin (fst sd) off (firstn (N.to_nat len) (snd sd))) (combine sts ds)).
    split; [|split].
    + apply mapM_ok. intros [s d] H. unfold add_bytes. cbn [fst snd].
      destruct QS as [_ QS], QD as [_ QD]. rewrite Forall_forall in QS, QD.
      rewrite (QS s (in_combine_l _ _ _ _ H)), (QD d (in_combine_r _ _ _ _ H)), C. reflexivity.
    + apply (quad_zip 200 L); auto. intros x y X Y. cbn [fst snd]. rewrite xin_length. assumption.
    + intros i I. rewrite nth_zip by (try apply QS; try apply QD; auto). cbn [fst snd]. unfold add_bytes.
      rewrite (quad_nth 200 sts i), (quad_nth L ds i), C by auto. reflexivity.
  - right. split.
    + apply mapM_ub.
      * intros E. apply (f_equal (@length (bytes * bytes))) in E. rewrite combine_length in E. destruct QS, QD. cbn [length] in E. lia.
      * intros [s d] H. unfold add_bytes. cbn [fst snd].
        destruct QS as [_ QS], QD as [_ QD]. rewrite Forall_forall in QS, QD.
        rewrite (QS s (in_combine_l _ _ _ _ H)), (QD d (in_combine_r _ _ _ _ H)), C. reflexivity.
    + intros i I. unfold add_bytes. rewrite (quad_nth 200 sts i), (quad_nth L ds i), C by auto. reflexivity.
Qed.
Lemma addb4 sts b off : quad 200 sts ->
  (exists sts', add_byte4 sts b off = Ok sts' /\ quad 200 sts' /\ forall i, i < 4 -> add_byte (at_ i sts) b off = Ok (at_ i sts')) \/
  (add_byte4 sts b off = UB OutOfBounds /\ forall i, i < 4 -> add_byte (at_ i sts) b off = UB OutOfBounds).
Proof.
  intros QS. unfold add_byte4. destruct (off <? 200) eqn:C.
  - left. exists (map (fun s => xin s off [b]) sts). split; [|split].
    + apply mapM_ok. intros s H. unfold add_byte. destruct QS as [_ QS]. rewrite Forall_forall in QS. rewrite (QS s H), C. reflexivity.
    + apply (quad_map 200); auto. intros. rewrite xin_length. assumption.
    + intros i I. rewrite nth_map by (try apply QS; auto). unfold add_byte. rewrite (quad_nth 200 sts i), C by auto. reflexivity.
  - right. split.
    + apply mapM_ub. { intros E. subst. destruct QS; discriminate. }
      intros s H. unfold add_byte. destruct QS as [_ QS]. rewrite Forall_forall in QS. rewrite (QS s H), C. reflexivity.
    + intros i I. unfold add_byte. rewrite (quad_nth 200 sts i), C by auto. reflexivity.
Qed.
Lemma ext4 sts off len : quad 200 sts ->
  (exists os, extract_bytes4 sts off len = Ok os /\ quad (N.to_nat len) os /\ forall i, i < 4 -> extract_bytes (at_ i sts) off len = Ok (at_ i os)) \/
  (extract_bytes4 sts off len = UB OutOfBounds /\ forall i, i < 4 -> extract_bytes (at_ i sts) off len = UB OutOfBounds).
Proof.
  intros QS. unfold extract_bytes4. destruct (N.leb (N.of_nat off + len) (N.of_nat 200)) eqn:C.
  - left. exists (map (fun s => slice s off (N.to_nat len)) sts). split; [|split].
    + apply mapM_ok. intros s H. unfold extract_bytes. destruct QS as [_ QS]. rewrite Forall_forall in QS. rewrite (QS s H), C. reflexivity.
    + apply (quad_map 200); auto. intros d Hd. unfold slice. rewrite firstn_length, skipn_length, Hd. apply N.leb_le in C. lia.
    + intros i I. rewrite nth_map by (try apply QS; auto). unfold extract_bytes. rewrite (quad_nth 200 sts i), C by auto. reflexivity.
  - right. split.
    + apply mapM_ub. { intros E. subst. destruct QS; discriminate. }
      intros s H. unfold extract_bytes. destruct QS as [_ QS]. rewrite Forall_forall in QS. rewrite (QS s H), C. reflexivity.
    + intros i I. unfold extract_bytes. rewrite (quad_nth 200 sts i), C by auto. reflexivity.
Qed.
Lemma nth_f sts i : quad 200 sts -> i < 4 -> at_ i (map f sts) = f (at_ i sts).
Proof. intros [A _] I. apply nth_map; auto. Qed.
Lemma quad_f sts : quad 200 sts -> quad 200 (map f sts).
Proof. intros Q. apply (quad_map 200); auto. Qed.
Lemma quad_skip L n ds : quad L ds -> quad (L - n) (map (skipn n) ds).
Proof. intros Q. apply (quad_map L); auto. intros d Hd. rewrite skipn_length. lia. Qed.
Lemma nth_skip L n ds i : quad L ds -> i < 4 -> at_ i (map (skipn n) ds) = skipn n (at_ i ds).
Proof. intros [A _] I. apply nth_map; auto. Qed.
Lemma nth_app4 L L' a b i : quad L a -> quad L' b -> i < 4 -> at_ i (app4 a b) = at_ i a ++ at_ i b.
Proof. intros [A _] [B _] I. unfold app4. rewrite nth_zip by auto. reflexivity. Qed.
Lemma quad_app4 L L' a b : quad L a -> quad L' b -> quad (L + L') (app4 a b).
Proof. intros A B. apply (quad_zip L L'); auto. intros x y X Y. cbn [fst snd]. rewrite app_length. lia. Qed.
Lemma quad_nil : quad 0 (repeat [] 4).
Proof. split; [reflexivity|]. repeat constructor. Qed.
Lemma nth_nil i : at_ i (repeat ([] : bytes) 4) = [].
Proof. do 5 (destruct i as [|i]; [reflexivity|]). reflexivity. Qed.

(** what is to be shown of each function: the scalar results are the lanes of the four-way result *)
Definition lanes {A B} (P : A -> Prop) (r : res A) (lane : nat -> A -> B) (s : nat -> res B) : Prop :=
  (forall a, r = Ok a -> P a) /\ forall i, i < 4 -> s i = rmap (lane i) r.
Lemma blocks4 rb : forall fuel L sts ds, quad 200 sts -> quad L ds ->
  lanes (fun x => quad 200 (fst x) /\ exists L', quad L' (snd x)) (absorb_blocks4 f rb fuel sts ds)
    (fun i x => (at_ i (fst x), at_ i (snd x))) (fun i => absorb_blocks f rb fuel (at_ i sts) (at_ i ds)).
Proof.
  induction fuel as [|fuel IH]; intros L sts ds QS QD; [split; [discriminate|reflexivity]|].
  cbn [absorb_blocks4]. rewrite (quad_len4 L ds QD).
  split.
  - intros a. destruct (Nat.leb_spec rb L).
    + destruct (add4 sts ds L 0 (N.of_nat rb) QS QD) as [(sts' & E & Q & _) | (E & _)]; rewrite E; cbn [bind]; [|discriminate].
      apply (IH (L - rb)); [apply quad_f; auto | apply quad_skip; auto].
    + intros H1. inversion H1; subst. cbn [fst snd]. eauto.
  - intros i I. cbn [absorb_blocks]. rewrite (quad_nth L ds i) by auto. destruct (Nat.leb_spec rb L); [|reflexivity].
    destruct (add4 sts ds L 0 (N.of_nat rb) QS QD) as [(sts' & E & Q & S) | (E & S)]; rewrite E, S by auto; cbn [bind]; [|reflexivity].
    rewrite <- nth_f, <- (nth_skip L) by auto.
    apply (IH (L - rb)); auto; [apply quad_f; auto | apply quad_skip; auto].
Qed.
Lemma loop4 rb : forall fuel L sts idx ds, quad 200 sts -> quad L ds ->
  lanes (fun x => quad 200 (fst x)) (absorb_loop4 f rb fuel sts idx ds)
    (fun i x => (at_ i (fst x), snd x)) (fun i => absorb_loop f rb fuel (at_ i sts) idx (at_ i ds)).
Proof.
  induction fuel as [|fuel IH]; intros L sts idx ds QS QD; [split; [discriminate|reflexivity]|].
  pose proof (blocks4 rb (S fuel) L sts ds QS QD) as [BP BL].
  split.
  - intros a. cbn [absorb_loop4]. rewrite (quad_len4 L ds QD).
    destruct (Nat.eqb_spec L 0). { intros H1. inversion H1; subst. assumption. }
    destruct ((idx =? 0) && (rb <=? L)).
    + destruct (absorb_blocks4 f rb (S fuel) sts ds) as [[sts' ds']| | | ]; cbn [bind]; try discriminate.
      destruct (BP _ eq_refl) as [Q [L' Q']]. apply (IH L'); auto.
    + set (p := if N.ltb _ _ then _ else _).
      destruct (add4 sts ds L idx p QS QD) as [(sts' & E & Q & _) | (E & _)]; rewrite E; cbn [bind]; [|discriminate].
      destruct (idx + N.to_nat p =? rb); apply (IH (L - N.to_nat p)); auto using quad_f, quad_skip.
  - intros i I. specialize (BL i I). cbn [absorb_loop4 absorb_loop]. rewrite (quad_len4 L ds QD), (quad_nth L ds i) by auto.
    destruct (Nat.eqb_spec L 0). { reflexivity. }
    destruct ((idx =? 0) && (rb <=? L)).
    + rewrite BL.
      destruct (absorb_blocks4 f rb (S fuel) sts ds) as [[sts' ds']| | | ]; cbn [bind rmap fst snd]; try reflexivity.
      destruct (BP _ eq_refl) as [Q [L' Q']]. apply (IH L'); auto.
    + set (p := if N.ltb _ _ then _ else _).
      destruct (add4 sts ds L idx p QS QD) as [(sts' & E & Q & S) | (E & S)]; rewrite E, S by auto; cbn [bind]; [|reflexivity].
      rewrite <- (nth_skip L) by auto. destruct (idx + N.to_nat p =? rb).
      * rewrite <- nth_f by auto. apply (IH (L - N.to_nat p)); auto using quad_f, quad_skip.
      * apply (IH (L - N.to_nat p)); auto using quad_f, quad_skip.
Qed.
Lemma sblocks4 rb : forall fuel sts need, quad 200 sts ->
  lanes (fun x => quad 200 (snd (fst x)) /\ exists L', quad L' (fst (fst x))) (squeeze_blocks4 f rb fuel sts need)
    (fun i x => (at_ i (fst (fst x)), at_ i (snd (fst x)), snd x)) (fun i => squeeze_blocks f rb fuel (at_ i sts) need).
Proof.
  induction fuel as [|fuel IH]; intros sts need QS; [split; [discriminate|reflexivity]|].
  pose proof (IH (map f sts) (need - rb) (quad_f _ QS)) as [BP BL].
  cbn [squeeze_blocks4]. split.
  - intros a. destruct (Nat.leb_spec rb need).
    + destruct (ext4 (map f sts) 0 (N.of_nat rb) (quad_f _ QS)) as [(os & E & Q & _) | (E & _)]; rewrite E; cbn [bind]; [|discriminate].
      destruct (squeeze_blocks4 f rb fuel (map f sts) (need - rb)) as [[[o s] n]| | |]; cbn [bind]; try discriminate.
      intros H1. inversion H1; subst. cbn [fst snd]. destruct (BP _ eq_refl) as [Q1 [L' Q2]]. cbn [fst snd] in *.
      split; auto. eexists. eapply quad_app4; eassumption.
    + intros H1. inversion H1; subst. cbn [fst snd]. split; auto. exists 0. rewrite (proj1 QS). exact quad_nil.
  - intros i I. specialize (BL i I). cbn [squeeze_blocks]. destruct (Nat.leb_spec rb need).
    2: { cbn [rmap fst snd]. rewrite (proj1 QS), nth_nil. reflexivity. }
    rewrite nth_f in BL by auto.
    destruct (ext4 (map f sts) 0 (N.of_nat rb) (quad_f _ QS)) as [(os & E & Q & S) | (E & S)].
    2: { rewrite E. specialize (S i I). rewrite nth_f in S by auto. rewrite S. reflexivity. }
    rewrite E. specialize (S i I). rewrite nth_f in S by auto. rewrite S. cbn [bind]. rewrite BL.
    destruct (squeeze_blocks4 f rb fuel (map f sts) (need - rb)) as [[[o s] n]| | |]; cbn [bind rmap fst snd]; try reflexivity.
    destruct (BP _ eq_refl) as [Q1 [L' Q2]]. cbn [fst snd] in *. erewrite nth_app4 by eassumption. reflexivity.
Qed.
Lemma sloop4 rb : forall fuel sts idx need, quad 200 sts ->
  lanes (fun x => quad 200 (snd (fst x)) /\ exists L', quad L' (fst (fst x))) (squeeze_loop4 f rb fuel sts idx need)
    (fun i x => (at_ i (fst (fst x)), at_ i (snd (fst x)), snd x)) (fun i => squeeze_loop f rb fuel (at_ i sts) idx need).
Proof.
  induction fuel as [|fuel IH]; intros sts idx need QS; [split; [discriminate|reflexivity]|].
  pose proof (sblocks4 rb (S fuel) sts need QS) as [BP BL].
  split.
  - intros a. cbn [squeeze_loop4].
    destruct (Nat.eqb_spec need 0).
    { intros H1. inversion H1; subst. cbn [fst snd]. split; auto. exists 0. rewrite (proj1 QS). exact quad_nil. }
    destruct ((idx =? rb) && (rb <=? need)).
    + destruct (squeeze_blocks4 f rb (S fuel) sts need) as [[[o s] n']| | |]; cbn [bind]; try discriminate.
      destruct (BP _ eq_refl) as [Q1 [L' Q2]]. cbn [fst snd] in *.
      pose proof (IH s idx n' Q1) as [CP _].
      destruct (squeeze_loop4 f rb fuel s idx n') as [[[o' s'] n'']| | |]; cbn [bind]; try discriminate.
      intros H1. inversion H1; subst. destruct (CP _ eq_refl) as [Q3 [L'' Q4]]. cbn [fst snd] in *. split; auto.
      eexists. eapply quad_app4; eassumption.
    + assert (X : exists sts1 idx1, (if idx =? rb then (map f sts, 0) else (sts, idx)) = (sts1, idx1) /\ quad 200 sts1).
      { destruct (idx =? rb); eexists; eexists; split; try reflexivity; auto using quad_f. }
      destruct X as (sts1 & idx1 & E1 & Q1). rewrite E1. set (p := if N.ltb _ _ then _ else _).
      destruct (ext4 sts1 idx1 p Q1) as [(os & E & Q & _) | (E & _)]; rewrite E; cbn [bind]; [|discriminate].
      pose proof (IH sts1 (idx1 + N.to_nat p) (need - N.to_nat p) Q1) as [CP _].
      destruct (squeeze_loop4 f rb fuel sts1 _ _) as [[[o' s'] n'']| | |]; cbn [bind]; try discriminate.
      intros H1. inversion H1; subst. destruct (CP _ eq_refl) as [Q3 [L'' Q4]]. cbn [fst snd] in *. split; auto.
      eexists. eapply quad_app4; eassumption.
  - intros i I. specialize (BL i I). cbn [squeeze_loop4 squeeze_loop].
    destruct (Nat.eqb_spec need 0).
    { cbn [rmap fst snd]. rewrite (proj1 QS), nth_nil. reflexivity. }
    destruct ((idx =? rb) && (rb <=? need)).
    + rewrite BL. destruct (squeeze_blocks4 f rb (S fuel) sts need) as [[[o s] n']| | |]; cbn [bind rmap fst snd]; try reflexivity.
      destruct (BP _ eq_refl) as [Q1 [L' Q2]]. cbn [fst snd] in *.
      pose proof (IH s idx n' Q1) as [CP CL]. rewrite (CL i I).
      destruct (squeeze_loop4 f rb fuel s idx n') as [[[o' s'] n'']| | |]; cbn [bind rmap fst snd]; try reflexivity.
      destruct (CP _ eq_refl) as [Q3 [L'' Q4]]. cbn [fst snd] in *. erewrite nth_app4 by eassumption. reflexivity.
    + assert (X : exists sts1 idx1, (if idx =? rb then (map f sts, 0) else (sts, idx)) = (sts1, idx1) /\ quad 200 sts1 /\
                    (if idx =? rb then (f (at_ i sts), 0) else (at_ i sts, idx)) = (at_ i sts1, idx1)).
      { destruct (idx =? rb); eexists; eexists; (split; [reflexivity|]); split; auto using quad_f. rewrite nth_f by auto. reflexivity. }
      destruct X as (sts1 & idx1 & E1 & Q1 & E2). rewrite E1, E2. set (p := if N.ltb _ _ then _ else _).
      destruct (ext4 sts1 idx1 p Q1) as [(os & E & Q & S) | (E & S)]; rewrite E, S by auto; cbn [bind]; [|reflexivity].
      pose proof (IH sts1 (idx1 + N.to_nat p) (need - N.to_nat p) Q1) as [CP CL]. rewrite (CL i I).
      destruct (squeeze_loop4 f rb fuel sts1 _ _) as [[[o' s'] n'']| | |]; cbn [bind rmap fst snd]; try reflexivity.
      destruct (CP _ eq_refl) as [Q3 [L'' Q4]]. cbn [fst snd] in *. erewrite nth_app4 by eassumption. reflexivity.
Qed.

(** ** instances *)
Definition lane_s (i : nat) (s : sponge4) : sponge := mkSponge (at_ i (sq_states s)) (sq_rate s) (sq_idx s) (sq_squeezing s).
Definition lane_k (i : nat) (k : khash4) : khash := mkKhash (lane_s i (kq_sponge k)) (kq_fixed k) (kq_suffix k).
Definition okq (k : khash4) : Prop := quad 200 (sq_states (kq_sponge k)).
Lemma absorb4_lanes fuel s L ds : quad 200 (sq_states s) -> quad L ds ->
  lanes (fun s => quad 200 (sq_states s)) (sponge4_absorb f fuel s ds) lane_s (fun i => sponge_absorb f fuel (lane_s i s) (at_ i ds)).
Proof.
  intros QS QD. pose proof (loop4 (sq_rate s / 8) fuel L (sq_states s) (sq_idx s) ds QS QD) as [P LL].
  unfold sponge4_absorb, sponge_absorb. split.
  - intros a. destruct (sq_squeezing s). { intros H; inversion H; subst; auto. }
    destruct (absorb_loop4 _ _ _ _ _ _) as [[sts idx]| | |]; cbn [bind]; try discriminate.
    intros H; inversion H; subst. exact (P _ eq_refl).
  - intros i I. specialize (LL i I). cbn [lane_s sp_squeezing sp_rate sp_state sp_idx]. destruct (sq_squeezing s) eqn:SQ.
    { cbn [rmap]. unfold lane_s. rewrite SQ. reflexivity. }
    rewrite LL. destruct (absorb_loop4 _ _ _ _ _ _) as [[sts idx]| | |]; cbn [bind rmap fst snd]; reflexivity.
Qed.
Lemma last4_lanes s delim : quad 200 (sq_states s) ->
  lanes (fun s => match s with Some s => quad 200 (sq_states s) | None => True end) (sponge4_last f s delim)
    (fun i => option_map (lane_s i)) (fun i => sponge_last f (lane_s i s) delim).
Proof.
  intros QS. unfold sponge4_last, sponge_last. split.
  - intros a. destruct (N.eqb delim 0). { intros H; inversion H; subst; exact I. }
    destruct (sq_squeezing s). { intros H; inversion H; subst; exact I. }
    destruct (addb4 (sq_states s) delim (sq_idx s) QS) as [(sts & E & Q & _)|(E & _)]; rewrite E; cbn [bind]; [|discriminate].
    set (sts1 := if N.leb 128 delim && _ then map f sts else sts). assert (Q1 : quad 200 sts1) by (unfold sts1; destruct (_ && _); auto using quad_f).
    destruct (addb4 sts1 128 (sq_rate s / 8 - 1) Q1) as [(sts2 & E2 & Q2 & _)|(E2 & _)]; rewrite E2; cbn [bind]; [|discriminate].
    intros H; inversion H; subst. cbn [sq_states]. auto using quad_f.
  - intros i I. cbn [lane_s sp_squeezing sp_rate sp_state sp_idx].
    destruct (N.eqb delim 0). { reflexivity. }
    destruct (sq_squeezing s). { reflexivity. }
    destruct (addb4 (sq_states s) delim (sq_idx s) QS) as [(sts & E & Q & S)|(E & S)]; rewrite E, S by auto; cbn [bind]; [|reflexivity].
    assert (X : (if N.leb 128 delim && (sq_idx s =? sq_rate s / 8 - 1) then f (at_ i sts) else at_ i sts) =
                at_ i (if N.leb 128 delim && (sq_idx s =? sq_rate s / 8 - 1) then map f sts else sts)).
    { destruct (_ && _); auto. rewrite nth_f by auto. reflexivity. }
    rewrite X. set (sts1 := if N.leb 128 delim && _ then map f sts else sts). assert (Q1 : quad 200 sts1) by (unfold sts1; destruct (_ && _); auto using quad_f).
    destruct (addb4 sts1 128 (sq_rate s / 8 - 1) Q1) as [(sts2 & E2 & Q2 & S2)|(E2 & S2)]; rewrite E2, S2 by auto; cbn [bind]; [|reflexivity].
    cbn [rmap option_map]. unfold lane_s. cbn [sq_states sq_rate sq_idx sq_squeezing]. rewrite nth_f by auto. reflexivity.
Qed.
Lemma squeeze4_lanes fuel s need : quad 200 (sq_states s) ->
  lanes (fun x => quad 200 (sq_states (snd x)) /\ exists L, quad L (fst x)) (sponge4_squeeze f fuel s need)
    (fun i x => (at_ i (fst x), lane_s i (snd x))) (fun i => sponge_squeeze f fuel (lane_s i s) need).
Proof.
  intros QS. pose proof (last4_lanes s 1 QS) as [LP LL].
  assert (X : lanes (fun s => quad 200 (sq_states s))
    (if sq_squeezing s then Ok s else do s' <- sponge4_last f s 1; Ok (match s' with Some s' => s' | None => s end)) lane_s
    (fun i => if sq_squeezing s then Ok (lane_s i s) else do s' <- sponge_last f (lane_s i s) 1; Ok (match s' with Some s' => s' | None => lane_s i s end))).
  { destruct (sq_squeezing s). { split; [|reflexivity]. intros a H; inversion H; subst; auto. }
    split.
    - intros a. destruct (sponge4_last f s 1) as [[s'|]| | |]; cbn [bind]; try discriminate; intros H; inversion H; subst; auto. exact (LP _ eq_refl).
    - intros i I. rewrite (LL i I). destruct (sponge4_last f s 1) as [[s'|]| | |]; reflexivity. }
  destruct X as [XP XL]. unfold sponge4_squeeze, sponge_squeeze. split.
  - intros a. destruct (if sq_squeezing s then _ else _) as [s1| | |]; cbn [bind]; try discriminate.
    specialize (XP _ eq_refl). pose proof (sloop4 (sq_rate s1 / 8) fuel (sq_states s1) (sq_idx s1) need XP) as [P _].
    destruct (squeeze_loop4 _ _ _ _ _ _) as [[[o st] idx]| | |]; cbn [bind]; try discriminate.
    intros H; inversion H; subst. exact (P _ eq_refl).
  - intros i I. specialize (XL i I). cbn [lane_s sp_squeezing] in *. rewrite XL.
    destruct (if sq_squeezing s then _ else _) as [s1| | |]; cbn [bind rmap]; try reflexivity.
    specialize (XP _ eq_refl). pose proof (sloop4 (sq_rate s1 / 8) fuel (sq_states s1) (sq_idx s1) need XP) as [_ CL].
    cbn [lane_s sp_squeezing sp_rate sp_state sp_idx]. rewrite (CL i I).
    destruct (squeeze_loop4 _ _ _ _ _ _) as [[[o st] idx]| | |]; cbn [bind rmap fst snd]; reflexivity.
Qed.

(** ** kdf_shake.h *)
Lemma init4 digest i : i < 4 -> k_hash_init digest = option_map (lane_k i) (k_hash_init_x4 digest).
Proof. intros I. unfold k_hash_init, k_hash_init_x4. destruct (digest =? 32); do 4 (destruct i as [|i]; [reflexivity|]); lia. Qed.
Lemma init4_ok digest : exists k, k_hash_init_x4 digest = Some k /\ okq k.
Proof.
  unfold k_hash_init_x4. destruct (digest =? 32); (eexists; split; [reflexivity|]); (split; [reflexivity|]); repeat constructor.
Qed.
Lemma update4_lanes fuel k L ds : okq k -> quad L ds ->
  lanes okq (k_hash_update_x4 f fuel k ds) lane_k (fun i => k_hash_update f fuel (lane_k i k) (at_ i ds)).
Proof.
  intros QS QD. set (n := bits_bytes L).
  assert (QD' : quad (Nat.min n L) (map (firstn n) ds)).
  { apply (quad_map L); auto. intros d Hd. rewrite firstn_length. lia. }
  pose proof (absorb4_lanes fuel (kq_sponge k) _ _ QS QD') as [P LL].
  unfold k_hash_update_x4, k_hash_update. rewrite (quad_len4 L ds QD). fold n. split.
  - intros a. destruct (sponge4_absorb _ _ _ _) as [s| | |]; cbn [bind]; try discriminate. intros H; inversion H; subst. exact (P _ eq_refl).
  - intros i I. specialize (LL i I). rewrite (quad_nth L ds i) by auto. fold n. rewrite nth_map in LL by (try apply QD; auto).
    cbn [lane_k kh_sponge]. rewrite LL. destruct (sponge4_absorb _ _ _ _) as [s| | |]; reflexivity.
Qed.
Lemma squeeze4_k fuel k n : okq k ->
  lanes (fun x => okq (snd x)) (k_hash_squeeze_x4 f fuel k n) (fun i x => (at_ i (fst x), lane_k i (snd x))) (fun i => k_hash_squeeze f fuel (lane_k i k) n).
Proof.
  intros QS. pose proof (squeeze4_lanes fuel (kq_sponge k) (bits_bytes n) QS) as [P LL].
  unfold k_hash_squeeze_x4, k_hash_squeeze. split.
  - intros a. destruct (sponge4_squeeze _ _ _ _) as [[o s]| | |]; cbn [bind]; try discriminate. intros H; inversion H; subst. exact (proj1 (P _ eq_refl)).
  - intros i I. cbn [lane_k kh_sponge]. rewrite (LL i I). destruct (sponge4_squeeze _ _ _ _) as [[o s]| | |]; reflexivity.
Qed.
Lemma final4_lanes fuel k : okq k -> lanes okq (k_hash_final_x4 f fuel k) lane_k (fun i => k_hash_final f fuel (lane_k i k)).
Proof.
  intros QS. pose proof (last4_lanes (kq_sponge k) (kq_suffix k) QS) as [P LL].
  unfold k_hash_final_x4, k_hash_final. split.
  - intros a. destruct (sponge4_last _ _ _) as [[s|]| | |]; cbn [bind]; try discriminate.
    + specialize (P _ eq_refl). pose proof (squeeze4_lanes fuel s (kq_fixed k / 8) P) as [P' _].
      destruct (sponge4_squeeze _ _ _ _) as [[o s']| | |]; cbn [bind]; try discriminate.
      destruct (P' _ eq_refl) as [Q1 _]. destruct (len4 o =? 0); try discriminate. intros H; inversion H; subst. exact Q1.
    + intros H; inversion H; subst. exact QS.
  - intros i I. cbn [lane_k kh_sponge kh_suffix kh_fixed]. rewrite (LL i I).
    destruct (sponge4_last _ _ _) as [[s|]| | |]; cbn [bind rmap option_map]; try reflexivity.
    specialize (P _ eq_refl). pose proof (squeeze4_lanes fuel s (kq_fixed k / 8) P) as [P' L'].
    rewrite (L' i I). destruct (sponge4_squeeze _ _ _ _) as [[o s']| | |]; cbn [bind rmap fst snd]; try reflexivity.
    destruct (P' _ eq_refl) as [_ [L0 Q0]]. cbn [fst] in Q0. rewrite (quad_nth L0 o i), (quad_len4 L0 o) by auto.
    destruct (L0 =? 0); reflexivity.
Qed.
Lemma updates4 fuel : forall chunks k, okq k -> Forall (fun ds => exists L, quad L ds) chunks ->
  lanes okq (foldM (k_hash_update_x4 f fuel) chunks k) lane_k
    (fun i => foldM (k_hash_update f fuel) (map (fun ds => at_ i ds) chunks) (lane_k i k)).
Proof.
  induction chunks as [|ds chunks IH]; intros k Q F; cbn [foldM map].
  { split; [|reflexivity]. intros a H; inversion H; subst; auto. }
  inversion F as [|x y [L F1] F2]; subst. pose proof (update4_lanes fuel k L ds Q F1) as [P LL]. split.
  - intros a. destruct (k_hash_update_x4 f fuel k ds) as [k1| | |]; cbn [bind]; try discriminate. apply IH; auto.
  - intros i I. rewrite (LL i I). destruct (k_hash_update_x4 f fuel k ds) as [k1| | |]; cbn [bind rmap]; try reflexivity. apply IH; auto.
Qed.
Lemma squeezes4 fuel i : i < 4 -> forall lens k, okq k ->
  k_squeezes f fuel (lane_k i k) lens = rmap (map (fun o => at_ i o)) (k_squeezes_x4 f fuel k lens).
Proof.
  intros I. induction lens as [|n lens IH]; intros k Q; cbn [k_squeezes k_squeezes_x4]; [reflexivity|].
  pose proof (squeeze4_k fuel k n Q) as [P LL]. rewrite (LL i I).
  destruct (k_hash_squeeze_x4 f fuel k n) as [[o k1]| | |]; cbn [bind rmap fst snd]; try reflexivity.
  rewrite (IH k1 (P _ eq_refl)). destruct (k_squeezes_x4 f fuel k1 lens); reflexivity.
Qed.
Lemma run4 fuel digest chunks lens i : i < 4 -> Forall (fun ds => exists L, quad L ds) chunks ->
  hash_run f fuel digest (map (fun ds => at_ i ds) chunks) lens = rmap (map (fun o => at_ i o)) (hash_run_x4 f fuel digest chunks lens).
Proof.
  intros I F. unfold hash_run, hash_run_x4. rewrite (init4 digest i I).
  destruct (init4_ok digest) as (k & E & Q). rewrite E. cbn [option_map].
  pose proof (updates4 fuel chunks k Q F) as [P LL]. rewrite (LL i I).
  destruct (foldM (k_hash_update_x4 f fuel) chunks k) as [k1| | |]; cbn [bind rmap]; try reflexivity.
  specialize (P _ eq_refl). pose proof (final4_lanes fuel k1 P) as [P' L']. rewrite (L' i I).
  destruct (k_hash_final_x4 f fuel k1) as [k2| | |]; cbn [bind rmap]; try reflexivity.
  apply squeezes4; auto.
Qed.
End Perm.
