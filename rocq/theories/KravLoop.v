(** The loop over the blocks *)
From Coq Require Import Arith NArith List Bool Lia.
From Verif Require Import Prelude SpongeModel SpongeFacts KeccakSpec KeccakModel KeccakFacts KeccakBytes SnpMem SnpLayout SnpSponge Opt64Model Opt64Facts Opt64More Opt64MoreFacts X86Model Simd256Model Simd256Round Simd256Facts StateSpec PutFacts Avx2Fast12 StateModel StateFacts FourSpec FourModel FourLay FourAll FourPerm KravSpec KravModel KravFacts.
Import ListNotations.

Lemma added_good a b : good a -> good b -> good (added a b).
Proof.
  intros [La Fa] [Lb Fb]. split; [unfold added; rewrite map_length, combine_length, La, Lb; reflexivity|]. apply Forall_forall. intros x Hx. apply in_map_iff in Hx. destruct Hx as ((u & v) & <- & H). cbn [fst snd].
  rewrite Forall_forall in Fa, Fb. apply b64_lxor; [apply Fa; exact (in_combine_l _ _ _ _ H)|apply Fb; exact (in_combine_r _ _ _ _ H)].
Qed.
(** *** one turn of the loop *)
Definition step (key : list N) (d : bytes) (acc : list N) (t : nat) : list N := added acc (permuted6 (added (Nat.iter t rolled key) (words_of (part d (200 * t) 200)))).
Lemma iter_add s t (k : list N) : Nat.iter s rolled (Nat.iter t rolled k) = Nat.iter (s + t) rolled k.
Proof. induction s as [|s IH]; [reflexivity|]. cbn [Nat.iter nat_rect Nat.add]. cbn [Nat.iter] in IH. f_equal. exact IH. Qed.
Lemma part_skip (d : bytes) p o n : part (skipn p d) o n = part d (p + o) n.
Proof. unfold part. rewrite skip_skip. reflexivity. Qed.
Lemma turn_ok key d acc xA xB b : good key -> is_bytes d -> length acc = 25 -> 800 * b + 800 <= length d -> holds key (Nat.iter (4 * b) rolled key) xA xB ->
  exists A xA' xB', krav_load key (skipn (800 * b) d) xA xB = Ok (A, xA', xB') /\ krav_accu (vrounds6 A) acc = Ok (fold_left (step key d) (seq (4 * b) 4) acc) /\
    length (fold_left (step key d) (seq (4 * b) 4) acc) = 25 /\ holds key (Nat.iter (4 * (b + 1)) rolled key) xA' xB'.
Proof.
  intros Gk Bd La Ld H. assert (Bs : is_bytes (skipn (800 * b) d)). { rewrite <- (firstn_skipn (800 * b) d) in Bd. apply Forall_app in Bd. apply Bd. }
  destruct (load_ok key _ (skipn (800 * b) d) xA xB Gk H Bs ltac:(rewrite skipn_length; lia)) as (A & xA' & xB' & E & H' & V & X). exists A, xA', xB'. split; [exact E|].
  assert (Q : forall i, i < 4 -> map (p_of i) (vlist (vrounds6 A)) = permuted6 (added (Nat.iter (4 * b + i) rolled key) (words_of (part d (200 * (4 * b + i)) 200)))).
  { intros i Hi. change (map (p_of i) (vlist (vrounds6 A))) with (lanes_list (pj (p_of i) (vrounds6 A))). rewrite four6 by exact V. specialize (X i Hi). rewrite iter_add, part_skip in X. replace (i + 4 * b) with (4 * b + i) in X by lia. replace (800 * b + 200 * i) with (200 * (4 * b + i)) in X by lia.
    change (map (p_of i) (vlist A)) with (lanes_list (pj (p_of i) A)) in X. rewrite <- permuted6_list; [rewrite X; reflexivity|].
    change (lanes_list (pj (p_of i) A)) with (map (p_of i) (vlist A)). rewrite Forall_map. eapply Forall_impl; [|exact V]. intros v (V0 & V1 & V2 & V3). do 3 (destruct i as [|i]; [assumption|]). destruct i; assumption. }
  assert (S : sum4 acc (vrounds6 A) = fold_left (step key d) (seq (4 * b) 4) acc).
  { unfold sum4. rewrite !Q by lia. cbn [seq fold_left]. unfold step. replace (4 * b + 0) with (4 * b) by lia. replace (4 * b + 1) with (S (4 * b)) by lia. replace (4 * b + 2) with (S (S (4 * b))) by lia. replace (4 * b + 3) with (S (S (S (4 * b)))) by lia. reflexivity. }
  split; [rewrite accu_ok by exact La; rewrite S; reflexivity|]. split.
  - rewrite <- S. unfold sum4, added. rewrite !map_length, !combine_length, !map_length, !combine_length, !map_length, !combine_length, !map_length, !combine_length. rewrite !map_length, La. reflexivity.
  - rewrite iter_add in H'. replace (4 * (b + 1)) with (4 + 4 * b) by lia. exact H'.
Qed.
(** *** all the blocks *)
Lemma fold_seq4 (f : list N -> nat -> list N) n b acc : fold_left f (seq b (4 + n)) acc = fold_left f (seq (b + 4) n) (fold_left f (seq b 4) acc).
Proof. rewrite seq_app, fold_left_app. reflexivity. Qed.
Lemma loop_ok key d : good key -> is_bytes d -> forall n fuel b acc xA xB, 1 <= n -> n <= fuel -> (N.of_nat n < 2 ^ 64)%N -> length acc = 25 -> 800 * (b + n) <= length d -> holds key (Nat.iter (4 * b) rolled key) xA xB ->
  exists xA' xB', krav_loop fuel key d acc xA xB (800 * b) (N.of_nat n) = Ok (fold_left (step key d) (seq (4 * b) (4 * n)) acc, xA', xB', 800 * (b + n)) /\ holds key (Nat.iter (4 * (b + n)) rolled key) xA' xB'.
Proof.
  intros Gk Bd. induction n as [|n IH]; intros fuel b acc xA xB H1 Hf Hn La Ld H; [lia|]. destruct fuel as [|fuel]; [lia|].
  destruct (turn_ok key d acc xA xB b Gk Bd La ltac:(lia) H) as (A & xA1 & xB1 & E1 & E2 & L2 & H2). cbn [krav_loop]. rewrite E1. cbn [bind]. rewrite E2. cbn [bind].
  replace ((N.of_nat (S n) + 2 ^ 64 - 1) mod 2 ^ 64)%N with (N.of_nat n).
  2:{ replace (N.of_nat (S n) + 2 ^ 64 - 1)%N with (N.of_nat n + 1 * 2 ^ 64)%N by lia. rewrite N.mod_add by discriminate. symmetry. apply N.mod_small. lia. }
  replace (800 * b + 4 * 25 * 8) with (800 * (b + 1)) by lia. destruct n as [|n].
  - exists xA1, xB1. cbn [N.of_nat N.eqb]. split; [reflexivity|exact H2].
  - replace (N.of_nat (S n) =? 0)%N with false by (symmetry; apply N.eqb_neq; lia).
    destruct (IH fuel (b + 1) _ xA1 xB1 ltac:(lia) ltac:(lia) ltac:(lia) L2 ltac:(lia) H2) as (xA2 & xB2 & E & H3). exists xA2, xB2. split; [rewrite E; f_equal; f_equal; [f_equal; f_equal|lia]|replace (b + S (S n)) with (b + 1 + S n) by lia; exact H3].
    replace (4 * S (S n)) with (4 + 4 * S n) by lia. rewrite fold_seq4. replace (4 * (b + 1)) with (4 * b + 4) by lia. reflexivity.
Qed.
Lemma store_key key K xA xB : good key -> holds key K xA xB -> (do k <- wstore key 20 xA; set_word k 24 (w3 xB)) = Ok K.
Proof.
  intros [L _] ((LK & _) & F & -> & ->). do 25 (destruct K as [|? K]; [discriminate LK|]). destruct K; [|discriminate LK]. do 25 (destruct key as [|? key]; [discriminate L|]). destruct key; [|discriminate L].
  cbn [firstn] in F. injection F as -> -> -> -> -> -> -> -> -> -> -> -> -> -> -> -> -> -> -> ->. reflexivity.
Qed.
Definition places (a b c d : N) : Prop := (a mod 32 = 0 /\ b mod 32 = 0 /\ c mod 32 = 0 /\ d mod 32 = 0)%N.
Theorem compress_ok a r t8 t56 acc key d n : places a r t8 t56 -> length acc = 25 -> good key -> is_bytes d -> (N.of_nat (length d) < 2 ^ 64)%N -> n = length d / 800 -> 1 <= n ->
  KravatteCompress a r t8 t56 acc key d = Ok (compressed acc key d (4 * n), Nat.iter (4 * n) rolled key, 800 * n).
Proof.
  intros (P1 & P2 & P3 & P4) La Gk Bd Hd Hn H1. unfold KravatteCompress, aligned32. rewrite P1, P2, P3, P4. cbn [N.eqb andb]. destruct Gk as [Lk Fk].
  pose proof (Nat.div_mod (length d) 800 ltac:(discriminate)) as E. rewrite <- Hn in E. pose proof (Nat.mod_upper_bound (length d) 800 ltac:(discriminate)) as U.
  unfold wload. rewrite !word_at_ok by lia. cbn [bind]. change (4 * 200)%N with (N.of_nat 800). rewrite <- Nat2N.inj_div, <- Hn.
  destruct (loop_ok key d (conj Lk Fk) Bd n (S (length d)) 0 acc (vword key 20) (vword key 21) H1 ltac:(lia) ltac:(lia) La ltac:(lia)) as (xA & xB & EL & HL).
  { split; [split; assumption|]. split; [reflexivity|]. split; reflexivity. }
  change (800 * 0) with 0 in EL. change (4 * 0) with 0 in EL. unfold vword in EL. rewrite EL. cbn [bind]. pose proof (store_key key _ xA xB (conj Lk Fk) HL) as SK. destruct (wstore key 20 xA) as [k| | |]; [|discriminate SK..]. cbn [bind] in SK |- *. rewrite SK. cbn [bind]. reflexivity.
Qed.
(** *** less than four blocks *)
Definition tame {A} (x : res A) : Prop := (exists v, x = Ok v) \/ x = UB OutOfBounds.
Lemma tame_bind {A B} (x : res A) (f : A -> res B) : tame x -> (forall v, tame (f v)) -> tame (bind x f).
Proof. intros [(v & ->)| ->] H; [apply H|right; reflexivity]. Qed.
Lemma tame_load d k : tame (load64 d k).
Proof. unfold load64. destruct (_ <=? _); [left; eexists; reflexivity|right; reflexivity]. Qed.
Lemma tame_word m a : tame (word_at m a).
Proof. unfold word_at. destruct (nth_error m a); [left; eexists; reflexivity|right; reflexivity]. Qed.
Ltac tame_all := repeat (apply tame_bind; [first [apply tame_load|apply tame_word]|intros ?]); left; eexists; reflexivity.
Lemma tame_u d k : tame (LOAD256u d k).
Proof. unfold LOAD256u. tame_all. Qed.
Lemma tame_4 d a : tame (LOAD4_64 d 25 a).
Proof. unfold LOAD4_64. tame_all. Qed.
Lemma tame_over key d a : tame (AddOverWr4 key d a).
Proof. unfold AddOverWr4. do 4 (apply tame_bind; [apply tame_u|intros ?]). destruct (INTLEAVE _ _ _ _) as [[[? ?] ?] ?]. tame_all. Qed.
Lemma tame_xor l d a : tame (LoadXOReq256 l d a).
Proof. unfold LoadXOReq256. apply tame_bind; [apply tame_4|intros ?]. left; eexists; reflexivity. Qed.
Lemma short_load key d xA xB : length d < 800 -> krav_load key d xA xB = UB OutOfBounds.
Proof.
  intros H. unfold krav_load. do 5 (match goal with |- context [AddOverWr4 key d ?a] => destruct (tame_over key d a) as [([[[? ?] ?] ?] & ->)| ->]; cbn [bind]; [|reflexivity] end).
  destruct (Kravatte_Rollc xA xB) as [[[[[[Asa Ase] Asi] Aso] Asu] x] y].
  destruct (tame_xor Asa d 20) as [(? & ->)| ->]; cbn [bind]; [|reflexivity]. destruct (tame_xor Ase d 21) as [(? & ->)| ->]; cbn [bind]; [|reflexivity].
  destruct (tame_xor Asi d 22) as [(? & ->)| ->]; cbn [bind]; [|reflexivity]. destruct (tame_xor Aso d 23) as [(? & ->)| ->]; cbn [bind]; [|reflexivity].
  unfold LoadXOReq256, LOAD4_64, load64 at 1. replace (8 * (25 * 3 + 24) + 8 <=? length d) with false by (symmetry; apply Nat.leb_gt; lia). reflexivity.
Qed.
(** the number of turns wraps around, and the first turn reads beyond the input *)
Theorem short_ok a r t8 t56 acc key d : places a r t8 t56 -> length key = 25 -> length d < 800 -> KravatteCompress a r t8 t56 acc key d = UB OutOfBounds.
Proof.
  intros (P1 & P2 & P3 & P4) Lk H. unfold KravatteCompress, aligned32. rewrite P1, P2, P3, P4. cbn [N.eqb andb]. unfold wload. rewrite !word_at_ok by lia. cbn [bind krav_loop skipn]. rewrite short_load by exact H. reflexivity.
Qed.
