(** Which uses of the hash function can have the same input. *)
From Coq Require Import Arith NArith ZArith List Bool Lia.
From Verif Require Import Prelude FieldModel FieldSpec FieldApi FieldLin PolyModel Instances HashModel TreeModel TreeSpec AesModel AesBase AesApi AesShares BanquetModel ContainerModel ListSum BanquetHash BanquetPure BanquetVerify BanquetCtx BanquetApi DomainSpec.
Import ListNotations.

Definition sizesb (I : instance) : bool :=
  let n := num_parties I in let T := num_rounds I in let lam := lambda I in let ds := digest_size I in
  existsb (fun s => (seed_size I =? s) && (ds =? 2 * s)) [16; 24; 32] &&
  (36 <? T * (n * (ds + pt_size I) + key_size (i_aes I) + num_sboxes (i_aes I))) && (36 <? T * (m2 I * lam)) && (36 <? T * (lam + n * lam + m1 I * (lam + lam + n * (lam + lam)))).
Lemma sizes I : builtin I -> let n := num_parties I in let T := num_rounds I in let lam := lambda I in let ds := digest_size I in
  ((seed_size I = 16 \/ seed_size I = 24 \/ seed_size I = 32) /\ ds = 2 * seed_size I) /\
  36 < T * (n * (ds + pt_size I) + key_size (i_aes I) + num_sboxes (i_aes I)) /\ 36 < T * (m2 I * lam) /\ 36 < T * (lam + n * lam + m1 I * (lam + lam + n * (lam + lam))).
Proof.
  intros HB n T lam ds. assert (X : sizesb I = true) by (apply (builtin_forall sizesb); [vm_compute; reflexivity|exact HB]).
  unfold sizesb in X. cbv zeta in X. apply andb_prop in X. destruct X as [X X4]. apply andb_prop in X. destruct X as [X X3]. apply andb_prop in X. destruct X as [X1 X2].
  apply Nat.ltb_lt in X2, X3, X4. split; [|split; [exact X2|split; [exact X3|exact X4]]].
  cbn [existsb] in X1. rewrite orb_false_r in X1. repeat (apply orb_prop in X1; destruct X1 as [X1|X1]); apply andb_prop in X1; destruct X1 as [A B]; apply Nat.eqb_eq in A, B; unfold ds; lia.
Qed.
Lemma app_inj_l {A} (a b a' b' : list A) : length a = length a' -> a ++ b = a' ++ b' -> a = a' /\ b = b'.
Proof. revert a'. induction a; intros [|x a'] L E; try discriminate L; [auto|]. cbn [app] in E. injection E as -> E. destruct (IHa a') as [-> ->]; auto. Qed.
Lemma app_inj_r {A} (a b a' b' : list A) : length b = length b' -> a ++ b = a' ++ b' -> a = a' /\ b = b'.
Proof. intros L E. apply app_inj_l; [|exact E]. apply (f_equal (@length A)) in E. rewrite !app_length in E. lia. Qed.

Ltac peel E := first [apply app_inj_l in E; [|rewrite ?le16_length; congruence]; let X := fresh "P" in destruct E as [X E]].
Lemma same_use I u u' : sized I u -> sized I u' -> kind u = kind u' -> hashed u = hashed u' -> u = u'.
Proof.
  intros S S' K E. destruct u, u'; try discriminate K; cbn [sized hashed] in *; clear K.
  - destruct S as (A & B & C & D), S' as (A' & B' & C' & D'). peel E. peel E. peel E. f_equal; auto; apply le16_inj; auto.
  - destruct S as (A & B & C & D), S' as (A' & B' & C' & D'). peel E. peel E. peel E. f_equal; auto; apply le16_inj; auto.
  - destruct S as (A & B & C & D), S' as (A' & B' & C' & D'). peel E. peel E. peel E. peel E. f_equal; auto; apply le16_inj; auto.
  - destruct S as (A & B & C), S' as (A' & B' & C'). peel E. peel E. peel E. apply app_inj_r in E; [|congruence]. destruct E as [-> ->]. congruence.
  - destruct S as (A & B & C), S' as (A' & B' & C'). peel E. peel E. peel E. congruence.
  - destruct S as (A & B & C), S' as (A' & B' & C'). peel E. peel E. peel E. congruence.
  - congruence.
  - destruct S as (A & B & C), S' as (A' & B' & C'). peel E. peel E. peel E. f_equal; congruence.
Qed.
Lemma different_use I u u' : builtin I -> sized I u -> sized I u' -> kind u <> kind u' -> 2 <= kind u \/ 2 <= kind u' -> kind u <> 7 -> kind u' <> 7 -> hashed u <> hashed u'.
Proof.
  intros HB S S' K K2 K7 K7' E. destruct (sizes I HB) as ((Z1 & Z2) & B1 & B2 & B3).
  destruct u, u'; cbn [kind] in *; try (exfalso; (apply K; reflexivity) || (apply K7; reflexivity) || (apply K7'; reflexivity) || lia); cbn [sized hashed] in S, S', E; try discriminate E;
  apply (f_equal (@length N)) in E; rewrite ?app_length, ?le16_length in E; cbn [length] in E; lia.
Qed.

Definition startb (I : instance) : bool :=
  let n := num_parties I in let T := num_rounds I in let lam := lambda I in let ds := digest_size I in
  let st := 2 + key_size (i_aes I) + 2 * pt_size I in
  (if seed_size I =? 16 then st =? 50 else (40 + seed_size I <? st) && (2 * seed_size I <? st)) && (st <=? T * (m2 I * lam)) && (st <=? T * (lam + n * lam + m1 I * (lam + lam + n * (lam + lam)))) && (i_params I <? 256) &&
  (1 <=? i_params I) && (key_size (i_aes I) <=? 32).
Lemma starts I : builtin I -> let n := num_parties I in let T := num_rounds I in let lam := lambda I in let ds := digest_size I in
  let st := 2 + key_size (i_aes I) + 2 * pt_size I in
  ((seed_size I = 16 /\ st = 50) \/ (seed_size I <> 16 /\ 40 + seed_size I < st /\ 2 * seed_size I < st)) /\ st <= T * (m2 I * lam) /\ st <= T * (lam + n * lam + m1 I * (lam + lam + n * (lam + lam))) /\ i_params I < 256 /\
  1 <= i_params I /\ key_size (i_aes I) <= 32.
Proof.
  intros HB n T lam ds st. assert (X : startb I = true) by (apply (builtin_forall startb); [vm_compute; reflexivity|exact HB]).
  unfold startb in X. cbv zeta in X. do 5 (apply andb_prop in X; let Y := fresh "Y" in destruct X as [X Y]).
  apply Nat.leb_le in Y, Y0, Y2, Y3. apply Nat.ltb_lt in Y1. split; [|repeat split; assumption].
  destruct (seed_size I =? 16) eqn:E; [left|right].
  - apply Nat.eqb_eq in E, X. split; assumption.
  - apply Nat.eqb_neq in E. apply andb_prop in X. destruct X as [A B]. apply Nat.ltb_lt in A, B. split; [exact E|split; assumption].
Qed.
Lemma le16_byte p : p < 256 -> le16 p = [N.of_nat p; 0%N].
Proof.
  intros Hp. unfold le16. rewrite N.mod_small by lia. unfold le_bytes. cbn [le_bytes]. 
  f_equal; [apply N.mod_small; lia|]. f_equal. rewrite N.div_small by lia. reflexivity.
Qed.
Lemma zeros_app a b : zeros a ++ zeros b = zeros (a + b).
Proof. unfold zeros. symmetry. apply repeat_app. Qed.
Lemma zeros_len a : length (zeros a) = a.
Proof. apply repeat_length. Qed.
Lemma start_differs I u u' : builtin I -> sized I u -> sized I u' -> kind u' = 7 -> kind u < 7 -> hashed u = hashed u' -> overlap I (kind u) 7.
Proof.
  intros HB S S' K' K E. destruct (sizes I HB) as ((Z1 & Z2) & _). destruct (starts I HB) as (T0 & T1 & T2 & T3 & T4 & T5). cbv zeta in T0.
  destruct u'; try discriminate K'. clear K'. cbn [sized] in S'. destruct S' as (-> & Lk & Lp). cbn [hashed] in E. rewrite (le16_byte _ T3) in E.
  unfold overlap. right. split; [reflexivity|].
  pose proof (f_equal (@length N) E) as EL. rewrite ?app_length in EL. rewrite Lk, Lp in EL. cbn [length] in EL.
  destruct u; cbn [kind] in *; cbn [sized hashed] in S, E, EL; rewrite ?app_length, ?le16_length in EL; cbn [length] in EL; try lia.
  - right. left. split; [reflexivity|]. injection E as E0 _. lia.
  - right. right. injection E as E0 _. lia.
  - right. right. injection E as E0 _. lia.
  - right. right. injection E as E0 _. lia.
Qed.
Lemma overlap_exists I k k' : builtin I -> overlap I k k' -> exists u u', sized I u /\ sized I u' /\ kind u = k /\ kind u' = k' /\ hashed u = hashed u'.
Proof.
  intros HB O. destruct (starts I HB) as (T0 & T1 & T2 & T3 & T4 & T5). destruct (sizes I HB) as (_ & B1 & B2 & B3). cbv zeta in T0, T1, T2.
  assert (small 0) by (unfold small; lia).
  set (st := Start (i_params I) (zeros (key_size (i_aes I))) (zeros (2 * pt_size I))).
  assert (Sst : forall j, sized I (st (zeros j))) by (intros j; unfold st; cbn [sized]; rewrite !zeros_len; auto).
  assert (Hst : forall j, hashed (st (zeros j)) = le16 (i_params I) ++ zeros (key_size (i_aes I) + 2 * pt_size I + j)) by (intros j; unfold st; cbn [hashed]; rewrite !zeros_app; do 2 f_equal; lia).
  destruct O as [[-> ->]|[-> O]].
  - exists (Commit (zeros 32) 0 0 (zeros (seed_size I))), (Tape (zeros 32) 0 0 (zeros (seed_size I))). cbn [sized kind hashed]. rewrite !zeros_len.
    change (le16 0) with (zeros 2). rewrite !zeros_app. do 4 (split; [auto|]). f_equal. lia.
  - destruct O as [[A B]|[[-> [A B]]|[A B]]].
    + destruct T0 as [[_ T0]|[T0 _]]; [|contradiction].
      exists (match k with 0 => Commit (le16 (i_params I) ++ zeros 30) 0 0 (zeros (seed_size I)) | _ => Tape (zeros 32) 0 0 (le16 (i_params I) ++ zeros (seed_size I - 2)) end), (st (zeros 2)).
      destruct k as [|[|k]]; [| |lia]; cbn [sized kind]; rewrite ?app_length, !zeros_len, ?le16_length, B; (split; [auto|]); (split; [apply Sst|]); do 2 (split; [reflexivity|]); rewrite Hst;
        cbn [hashed]; change (le16 0) with (zeros 2); rewrite <- ?app_assoc, ?zeros_app; do 2 f_equal; lia.
    + destruct T0 as [[_ T0]|[T0 _]]; [|contradiction]. exists (Node (zeros 32) 0 0 (zeros (seed_size I))), (st (zeros 3)).
      cbn [sized kind]. rewrite !zeros_len. split; [auto|]. split; [apply Sst|]. do 2 (split; [reflexivity|]). rewrite Hst, B. cbn [hashed].
      change (le16 1) with ([1%N] ++ zeros 1). change (le16 0) with (zeros 2). rewrite <- app_assoc, !zeros_app. do 2 f_equal. lia.
    + destruct k as [|[|[|[|[|[|k]]]]]]; try lia; [set (body := num_rounds I * (num_parties I * (digest_size I + pt_size I) + key_size (i_aes I) + num_sboxes (i_aes I)));
        exists (Phase1 (zeros 32) (zeros (2 * pt_size I)) [] (zeros body)), (st (zeros (31 + body - key_size (i_aes I))))
       |set (body := num_rounds I * (m2 I * lambda I)); exists (Phase2 (zeros 32) (zeros (digest_size I)) (zeros body)), (st (zeros (31 + digest_size I + body - key_size (i_aes I) - 2 * pt_size I)))
       |set (body := num_rounds I * (lambda I + num_parties I * lambda I + m1 I * (lambda I + lambda I + num_parties I * (lambda I + lambda I)))); exists (Phase3 (zeros 32) (zeros (digest_size I)) (zeros body)), (st (zeros (31 + digest_size I + body - key_size (i_aes I) - 2 * pt_size I)))];
      (split; [cbn [sized]; rewrite !zeros_len; auto|]); (split; [apply Sst|]); do 2 (split; [reflexivity|]); rewrite Hst; cbn [hashed];
      [assert (P : i_params I = 1) by lia|assert (P : i_params I = 2) by lia|assert (P : i_params I = 3) by lia]; rewrite P;
      [change (le16 1) with ([1%N] ++ zeros 1)|change (le16 2) with ([2%N] ++ zeros 1)|change (le16 3) with ([3%N] ++ zeros 1)]; rewrite <- ?app_assoc, ?zeros_app; cbn [app]; rewrite ?zeros_app; f_equal; f_equal.
      all: lia.
Qed.

(** *** the code hashes these inputs *)
Lemma commit_input H I seed salt rep party : commit_to_party_seed H I seed salt rep party = stream H (digest_size I =? 32) (hashed (Commit salt rep party seed)) 0 (digest_size I).
Proof. unfold commit_to_party_seed. unfold hash_squeeze, hash_final, hash_update_u16, hash_update, hash_init. cbn [h_v h_in h_off fst app hashed]. rewrite <- !app_assoc. reflexivity. Qed.
Lemma tape_input H I seed salt rep party : generate_tape H I salt rep party seed = stream H (2 * length seed =? 32) (hashed (Tape salt rep party seed)) 0 (tape_size I).
Proof. unfold generate_tape. unfold hash_squeeze, hash_final, hash_update_u16, hash_update, hash_init. cbn [h_v h_in h_off fst app hashed]. rewrite <- !app_assoc. do 2 f_equal. lia. Qed.
Lemma stream_cat H v m a k l : stream H v m a (k + l) = stream H v m a k ++ stream H v m (a + k) l.
Proof. unfold stream. rewrite <- map_app, <- seq_app. reflexivity. Qed.
Lemma node_input H salt rep seed k : length seed <= 32 ->
  expand_seed H salt rep (seed ++ zeros (2 * length seed), []) (SData 0 (length seed)) k (SData (length seed) (2 * length seed)) =
  Ok (seed ++ stream H (2 * length seed =? 32) (hashed (Node salt rep k seed)) 0 (2 * length seed), []).
Proof.
  intros L. rewrite (expand1_eq H salt rep seed k) by lia. unfold child_seed. do 3 f_equal. cbn [Nat.mul]. rewrite Nat.add_0_r, (stream_cat _ _ _ 0). 
  cbn [hashed Nat.add]. replace (length seed * 2) with (length seed + length seed) by lia. reflexivity.
Qed.
Lemma map_nth_seq {A} (l : list A) d k : length l = k -> l = map (fun i => nth i l d) (seq 0 k).
Proof.
  intros <-. apply (nth_ext _ _ d d); [rewrite map_length, seq_length; reflexivity|]. intros i Hi.
  rewrite (nth_indep (map _ _) d ((fun j => nth j l d) 0)) by (rewrite map_length, seq_length; exact Hi). rewrite (map_nth (fun j => nth j l d)), seq_nth by exact Hi. reflexivity.
Qed.
Lemma table_fun r k len (t : list (list bytes)) : table r k len t -> exists f, t = map (fun i => map (f i) (seq 0 k)) (seq 0 r) /\ forall i p, i < r -> p < k -> length (f i p) = len.
Proof.
  intros [A B]. exists (fun i p => nth p (nth i t []) []). rewrite Forall_forall in B. split.
  - etransitivity; [apply (map_nth_seq t [] r A)|]. apply map_ext_in. intros i Hi. apply in_seq in Hi. apply map_nth_seq. apply (B (nth i t [])). apply nth_In. lia.
  - intros i p Hi Hp. destruct (B (nth i t []) (nth_In t [] ltac:(rewrite A; exact Hi))) as [L F]. rewrite Forall_forall in F. apply F. apply nth_In. lia.
Qed.
Lemma column_fun k len (l : list bytes) : column k len l -> exists f, l = map f (seq 0 k) /\ forall p, p < k -> length (f p) = len.
Proof.
  intros [A B]. exists (fun p => nth p l []). split; [apply map_nth_seq; exact A|]. intros p Hp. rewrite Forall_forall in B. apply B. apply nth_In. lia.
Qed.
Lemma phase1_input H I salt pk msg coms kds tds bcasts : length salt = 32 -> length pk = 2 * pt_size I ->
  table (num_rounds I) (num_parties I) (digest_size I) coms -> column (num_rounds I) (key_size (i_aes I)) kds -> column (num_rounds I) (num_sboxes (i_aes I)) tds ->
  table (num_rounds I) (num_parties I) (pt_size I) bcasts ->
  exists body, sized I (Phase1 salt pk msg body) /\ phase_1_commitment H I salt pk msg coms kds tds bcasts = Ok (stream H (digest_size I =? 32) (hashed (Phase1 salt pk msg body)) 0 (digest_size I)).
Proof.
  intros Ls Lp A B C D. destruct (table_fun _ _ _ _ A) as (com & -> & Lc). destruct (column_fun _ _ _ B) as (kd & -> & Lk). destruct (column_fun _ _ _ C) as (td & -> & Lt).
  destruct (table_fun _ _ _ _ D) as (bc & -> & Lb).
  exists (concat (map (fun r => part1 I (com r) (bc r) (kd r) (td r)) (seq 0 (num_rounds I)))). split.
  - cbn [sized]. split; [exact Ls|]. split; [exact Lp|]. apply concat_map_length. intros r Hr. unfold part1. rewrite !app_length, (concat_map_length _ (digest_size I + pt_size I)).
    + rewrite Lk, Lt by exact Hr. lia.
    + intros p Hp. rewrite app_length, Lc, Lb by assumption. reflexivity.
  - unfold phase_1_commitment. rewrite phase_1_ctx_ok. cbn [bind]. unfold hash_squeeze, hash_final, ctx_of. cbn [h_v h_in h_off fst]. reflexivity.
Qed.
Lemma field_inst_ok I c : builtin I -> init_extension_field (lambda I) = Ok c -> inst_ok I c (nk_of I).
Proof. intros HB HF. destruct (builtin_inst_ok I HB) as [c' OK]. pose proof (io_field _ _ _ OK) as X. rewrite HF in X. injection X as ->. exact OK. Qed.
Lemma phase2_input H I c salt h1 ds : builtin I -> init_extension_field (lambda I) = Ok c -> length salt = 32 -> length h1 = digest_size I ->
  length ds = num_rounds I -> Forall (fun row => m2 I <= length row) ds ->
  exists body, sized I (Phase2 salt h1 body) /\ phase_2_commitment H I c salt h1 ds = Ok (stream H (digest_size I =? 32) (hashed (Phase2 salt h1 body)) 0 (digest_size I)).
Proof.
  intros HB HF Ls Lh Ld F. pose proof (field_inst_ok I c HB HF) as OK. rewrite (map_nth_seq ds [] _ Ld).
  exists (concat (map (fun r => part2 I (nth r ds [])) (seq 0 (num_rounds I)))). split.
  - cbn [sized]. split; [exact Ls|]. split; [exact Lh|]. apply concat_map_length. intros r Hr. unfold part2. apply concat_map_length. intros k Hk. apply to_bytes_len.
  - rewrite (phase_2_commitment_ok H I c (nk_of I) OK); [reflexivity|]. intros r Hr. rewrite Forall_forall in F. apply F. apply nth_In. lia.
Qed.
Lemma phase3_input H I c salt h2 o vs : builtin I -> init_extension_field (lambda I) = Ok c -> length salt = 32 -> length h2 = digest_size I ->
  length o = num_rounds I -> Forall (fun v => length (v_a v) = m1 I /\ length (v_b v) = m1 I) o ->
  length vs = num_rounds I -> Forall (fun row => length row = num_parties I /\ Forall (fun v => length (v_a v) = m1 I /\ length (v_b v) = m1 I) row) vs ->
  exists body, sized I (Phase3 salt h2 body) /\ phase_3_commitment H I c salt h2 o vs = Ok (stream H (digest_size I =? 32) (hashed (Phase3 salt h2 body)) 0 (digest_size I)).
Proof.
  intros HB HF Ls Lh Lo Fo Lv Fv. pose proof (field_inst_ok I c HB HF) as OK. set (dv := (([], []), 0%N) : view).
  rewrite Forall_forall in Fo, Fv.
  assert (Ev : vs = map (fun r => map (fun p => nth p (nth r vs []) dv) (seq 0 (num_parties I))) (seq 0 (num_rounds I))).
  { etransitivity; [apply (map_nth_seq vs [] _ Lv)|]. apply map_ext_in. intros i Hi. apply in_seq in Hi. apply map_nth_seq. apply (Fv (nth i vs [])). apply nth_In. lia. }
  exists (concat (map (fun r => part3 I (nth r o dv) (fun p => nth p (nth r vs []) dv)) (seq 0 (num_rounds I)))). split.
  - cbn [sized]. split; [exact Ls|]. split; [exact Lh|]. apply concat_map_length. intros r Hr. unfold part3. rewrite !app_length, to_bytes_len, <- Nat.add_assoc. apply f_equal. apply f_equal2.
    + apply concat_map_length. intros p Hp. apply to_bytes_len.
    + apply concat_map_length. intros j Hj. rewrite !app_length, !to_bytes_len, <- Nat.add_assoc. apply f_equal. apply f_equal. apply concat_map_length. intros p Hp. rewrite app_length, !to_bytes_len. reflexivity.
  - unfold phase_3_commitment. rewrite Ev at 1. rewrite (map_nth_seq o dv _ Lo) at 1. rewrite (phase_3_ctx_ok I c (nk_of I) OK).
    + cbn [bind]. unfold hash_squeeze, hash_final, ctx_of. cbn [h_v h_in h_off fst]. reflexivity.
    + intros r Hr. apply Fo. apply nth_In. lia.
    + intros r p Hr Hp. destruct (Fv (nth r vs []) (nth_In vs [] ltac:(rewrite Lv; exact Hr))) as [L F]. rewrite Forall_forall in F. apply F. apply nth_In. lia.
Qed.

(** *** the challenges depend on the hash function only at the digest *)
Definition same_at (H H' : oracle) (v : bool) (m : bytes) : Prop := forall i, H v m i = H' v m i.
Lemma squeeze_same H H' ctx k : same_at H H' (h_v ctx) (h_in ctx) -> hash_squeeze H' ctx k = hash_squeeze H ctx k.
Proof. intros S. unfold hash_squeeze. destruct (h_off ctx); [|reflexivity]. f_equal. unfold stream. apply map_ext. intros i. rewrite (S i). reflexivity. Qed.
Lemma squeeze_keeps H ctx k b cb : hash_squeeze H ctx k = (b, cb) -> h_v cb = h_v ctx /\ h_in cb = h_in ctx.
Proof. unfold hash_squeeze. destruct (h_off ctx); intros E; injection E as _ <-; auto. Qed.
Lemma squeeze_elems_same H H' I c : forall k ctx, same_at H H' (h_v ctx) (h_in ctx) -> squeeze_elems H' I c k ctx = squeeze_elems H I c k ctx.
Proof.
  induction k; intros ctx S; cbn [squeeze_elems]; [reflexivity|]. rewrite (squeeze_same _ _ _ _ S). destruct (hash_squeeze H ctx (lambda I)) as [b cb] eqn:Es. apply squeeze_keeps in Es.
  destruct (elem_at c _ 0); cbn [bind]; try reflexivity. rewrite IHk by (rewrite (proj1 Es), (proj2 Es); exact S). reflexivity.
Qed.
Lemma squeeze_elems_ctx H I c : forall k ctx l ctx', squeeze_elems H I c k ctx = Ok (l, ctx') -> h_v ctx' = h_v ctx /\ h_in ctx' = h_in ctx.
Proof.
  induction k; intros ctx l ctx' E; cbn [squeeze_elems] in E; [injection E as <- <-; auto|]. destruct (hash_squeeze H ctx (lambda I)) as [b cb] eqn:Es. apply squeeze_keeps in Es. rewrite <- (proj1 Es), <- (proj2 Es). destruct (elem_at c _ 0); cbn [bind] in E; try discriminate E.
  destruct (squeeze_elems H I c k _) as [[l0 c0]| | |] eqn:E0; cbn [bind] in E; try discriminate E. injection E as <- <-. apply IHk in E0. exact E0.
Qed.
Lemma squeeze_rows_same H H' I c : forall k ctx, same_at H H' (h_v ctx) (h_in ctx) -> squeeze_rows H' I c k ctx = squeeze_rows H I c k ctx.
Proof.
  induction k; intros ctx S; cbn [squeeze_rows]; [reflexivity|]. rewrite (squeeze_elems_same _ _ _ _ _ _ S). 
  destruct (squeeze_elems H I c _ ctx) as [[l0 c0]| | |] eqn:E0; cbn [bind]; try reflexivity. apply squeeze_elems_ctx in E0. destruct E0 as [A B]. rewrite IHk; [reflexivity|]. rewrite A, B. exact S.
Qed.
Lemma sample_R_same H H' I c fb : forall f ctx, same_at H H' (h_v ctx) (h_in ctx) -> sample_R H' I c f fb ctx = sample_R H I c f fb ctx.
Proof.
  induction f; intros ctx S; cbn [sample_R]; [reflexivity|]. rewrite (squeeze_same _ _ _ _ S). destruct (hash_squeeze H ctx (lambda I)) as [b cb] eqn:Es. apply squeeze_keeps in Es.
  destruct (elem_at c _ 0); cbn [bind]; try reflexivity. destruct (read fb 0 (m2 I)); cbn [bind]; try reflexivity. destruct (existsb _ _); [|reflexivity]. apply IHf. rewrite (proj1 Es), (proj2 Es). exact S.
Qed.
Lemma sample_R_ctx H I c fb : forall f ctx x ctx', sample_R H I c f fb ctx = Ok (x, ctx') -> h_v ctx' = h_v ctx /\ h_in ctx' = h_in ctx.
Proof.
  induction f; intros ctx x ctx' E; cbn [sample_R] in E; [discriminate E|]. destruct (hash_squeeze H ctx (lambda I)) as [b cb] eqn:Es. apply squeeze_keeps in Es. rewrite <- (proj1 Es), <- (proj2 Es). destruct (elem_at c _ 0); cbn [bind] in E; try discriminate E.
  destruct (read fb 0 (m2 I)); cbn [bind] in E; try discriminate E. destruct (existsb _ _); [apply IHf in E; exact E|]. injection E as <- <-. auto.
Qed.
Lemma sample_Rs_same H H' I c f fb : forall k ctx, same_at H H' (h_v ctx) (h_in ctx) -> sample_Rs H' I c f fb k ctx = sample_Rs H I c f fb k ctx.
Proof.
  induction k; intros ctx S; cbn [sample_Rs]; [reflexivity|]. rewrite (sample_R_same _ _ _ _ _ _ _ S).
  destruct (sample_R H I c f fb ctx) as [[x c0]| | |] eqn:E0; cbn [bind]; try reflexivity. apply sample_R_ctx in E0. destruct E0 as [A B]. rewrite IHk; [reflexivity|]. rewrite A, B. exact S.
Qed.
Lemma sample_party_same H H' I : forall f hi ctx, same_at H H' (h_v ctx) (h_in ctx) -> sample_party H' I f hi ctx = sample_party H I f hi ctx.
Proof.
  induction f; intros hi ctx S; cbn [sample_party]; [reflexivity|]. rewrite (squeeze_same _ _ _ _ S). destruct (hash_squeeze H ctx (squeeze_size I)) as [b cb] eqn:Es. apply squeeze_keeps in Es. cbv zeta.
  destruct (N.leb _ _); [|reflexivity]. apply IHf. rewrite (proj1 Es), (proj2 Es). exact S.
Qed.
Lemma sample_party_ctx H I : forall f hi ctx x ctx', sample_party H I f hi ctx = Ok (x, ctx') -> h_v ctx' = h_v ctx /\ h_in ctx' = h_in ctx.
Proof.
  induction f; intros hi ctx x ctx' E; cbn [sample_party] in E; [discriminate E|]. destruct (hash_squeeze H ctx (squeeze_size I)) as [b cb] eqn:Es. apply squeeze_keeps in Es. rewrite <- (proj1 Es), <- (proj2 Es). cbv zeta in E.
  destruct (N.leb _ _); [apply IHf in E; exact E|]. injection E as <- <-. auto.
Qed.
Lemma sample_parties_same H H' I f garb : forall k e ctx, same_at H H' (h_v ctx) (h_in ctx) -> sample_parties H' I f garb e k ctx = sample_parties H I f garb e k ctx.
Proof.
  induction k; intros e ctx S; cbn [sample_parties]; [reflexivity|]. rewrite (sample_party_same _ _ _ _ _ _ S).
  destruct (sample_party H I f _ ctx) as [[x c0]| | |] eqn:E0; cbn [bind]; try reflexivity. apply sample_party_ctx in E0. destruct E0 as [A B]. rewrite IHk; [reflexivity|]. rewrite A, B. exact S.
Qed.
Lemma challenges_input H H' I c fuel garb h xs : (forall i, H (digest_size I =? 32) (hashed (Challenge h)) i = H' (digest_size I =? 32) (hashed (Challenge h)) i) ->
  phase_1_expand H' I c h = phase_1_expand H I c h /\ phase_2_expand H' I c fuel h xs = phase_2_expand H I c fuel h xs /\ phase_3_expand H' I fuel garb h = phase_3_expand H I fuel garb h.
Proof. intros S. unfold phase_1_expand, phase_2_expand, phase_3_expand. split; [|split]; [apply squeeze_rows_same|apply sample_Rs_same|apply sample_parties_same]; exact S. Qed.

Lemma seeds_stream H I v m : forall k off, squeeze_seeds H I k (mkCtx v m (Some off)) = map (fun i => stream H v m (off + i * seed_size I) (seed_size I)) (seq 0 k).
Proof.
  induction k; intros off; cbn [squeeze_seeds seq map]; [reflexivity|]. unfold hash_squeeze. cbn [h_v h_in h_off]. f_equal; [f_equal; lia|].
  rewrite IHk, <- seq_shift, map_map. apply map_ext. intros i. f_equal. lia.
Qed.
Lemma start_input H I key pk msg : let s := stream H (digest_size I =? 32) (hashed (Start (i_params I) key pk msg)) in
  generate_salt_and_seeds H I (key, pk) msg = (s 0 32, map (fun r => s (32 + r * seed_size I) (seed_size I)) (seq 0 (num_rounds I))).
Proof.
  cbv zeta. unfold generate_salt_and_seeds. unfold hash_squeeze at 1, hash_final. unfold hash_update_u16, hash_update, hash_init. cbn [h_v h_in h_off fst snd app].
  rewrite <- !app_assoc. cbn [hashed]. f_equal. apply seeds_stream.
Qed.

(** *** collisions *)
Lemma commit_is_tape H I : builtin I -> commit_to_party_seed H I (zeros (seed_size I)) (zeros 32) 0 0 = firstn (digest_size I) (generate_tape H I (zeros 32) 0 0 (zeros (seed_size I))).
Proof.
  intros HB. rewrite commit_input, tape_input. destruct (sizes I HB) as ((Z1 & Z2) & _ & B2 & _).
  assert (Et : digest_size I <= tape_size I).
  { assert (X : (digest_size I <=? tape_size I) = true) by (apply (builtin_forall (fun I => digest_size I <=? tape_size I)); [vm_compute; reflexivity|exact HB]). apply Nat.leb_le. exact X. }
  replace (tape_size I) with (digest_size I + (tape_size I - digest_size I)) by lia. rewrite stream_cat, firstn_app, stream_length, Nat.sub_diag. cbn [firstn]. rewrite app_nil_r.
  rewrite firstn_all2 by (rewrite stream_length; lia). assert (L : length (zeros (seed_size I)) = seed_size I) by apply repeat_length. rewrite L, Z2.
  assert (Eh : hashed (Commit (zeros 32) 0 0 (zeros (seed_size I))) = hashed (Tape (zeros 32) 0 0 (zeros (seed_size I)))); [|rewrite Eh; reflexivity].
  cbn [hashed]. change (le16 0) with (zeros 2). rewrite !zeros_app. f_equal. lia.
Qed.

Lemma kind_bound u : kind u <= 7.
Proof. destruct u; cbn [kind]; lia. Qed.
Lemma collisions I k k' : builtin I -> k < k' -> ((exists u u', sized I u /\ sized I u' /\ kind u = k /\ kind u' = k' /\ hashed u = hashed u') <-> overlap I k k').
Proof.
  intros HB Hk. split; [|apply overlap_exists; exact HB]. intros (u & u' & S & S' & <- & <- & E).
  pose proof (kind_bound u'). destruct (Nat.eq_dec (kind u') 7) as [K|K].
  - rewrite K. apply (start_differs I u u'); auto; lia.
  - destruct (le_lt_dec 2 (kind u')) as [K2|K2].
    + exfalso. revert E. apply (different_use I); auto; lia.
    + left. lia.
Qed.
Lemma phase_inputs H I c salt pk msg h1 h2 coms kds tds bcasts ds o vs : builtin I -> init_extension_field (lambda I) = Ok c ->
  length salt = 32 -> length pk = 2 * pt_size I -> length h1 = digest_size I -> length h2 = digest_size I ->
  table (num_rounds I) (num_parties I) (digest_size I) coms -> column (num_rounds I) (key_size (i_aes I)) kds ->
  column (num_rounds I) (num_sboxes (i_aes I)) tds -> table (num_rounds I) (num_parties I) (pt_size I) bcasts ->
  length ds = num_rounds I -> Forall (fun row => m2 I <= length row) ds ->
  length o = num_rounds I -> Forall (fun v => length (v_a v) = m1 I /\ length (v_b v) = m1 I) o ->
  length vs = num_rounds I -> Forall (fun row => length row = num_parties I /\ Forall (fun v => length (v_a v) = m1 I /\ length (v_b v) = m1 I) row) vs ->
  let digest u := stream H (digest_size I =? 32) (hashed u) 0 (digest_size I) in
  (exists body, sized I (Phase1 salt pk msg body) /\ phase_1_commitment H I salt pk msg coms kds tds bcasts = Ok (digest (Phase1 salt pk msg body))) /\
  (exists body, sized I (Phase2 salt h1 body) /\ phase_2_commitment H I c salt h1 ds = Ok (digest (Phase2 salt h1 body))) /\
  (exists body, sized I (Phase3 salt h2 body) /\ phase_3_commitment H I c salt h2 o vs = Ok (digest (Phase3 salt h2 body))).
Proof.
  intros. split; [|split]; [apply phase1_input|apply phase2_input|apply phase3_input]; assumption.
Qed.
Lemma different_indices I salt salt' a b a' b' seed seed' : (a, b) <> (a', b') ->
  (sized I (Commit salt a b seed) -> sized I (Commit salt' a' b' seed') -> hashed (Commit salt a b seed) <> hashed (Commit salt' a' b' seed')) /\
  (sized I (Tape salt a b seed) -> sized I (Tape salt' a' b' seed') -> hashed (Tape salt a b seed) <> hashed (Tape salt' a' b' seed')) /\
  (sized I (Node salt a b seed) -> sized I (Node salt' a' b' seed') -> hashed (Node salt a b seed) <> hashed (Node salt' a' b' seed')).
Proof.
  intros D. split; [|split]; intros S S' E; apply (same_use I _ _ S S' eq_refl) in E; injection E; intros; subst; apply D; reflexivity.
Qed.
Lemma refuted I : builtin I -> exists salt seed rep party, length salt = 32 /\ length seed = seed_size I /\
  forall H, commit_to_party_seed H I seed salt rep party = firstn (digest_size I) (generate_tape H I salt rep party seed).
Proof. intros HB. exists (zeros 32), (zeros (seed_size I)), 0, 0. rewrite !zeros_len. split; [reflexivity|]. split; [reflexivity|]. intros H. apply commit_is_tape. exact HB. Qed.
Lemma domain_case : exists I, builtin I /\ sized I (Commit (zeros 32) 3 5 (zeros (seed_size I))) /\ sized I (Node (zeros 32) 3 5 (zeros (seed_size I))) /\
  sized I (Challenge (zeros (digest_size I))) /\ overlap I 0 7 /\ ~ overlap I 2 6.
Proof.
  exists (nth 1 instances (mkInst (mkAes 0 0 0 0) 0 0 0 0 0 0 0 0)). split; [exists 1%Z; reflexivity|]. unfold small. cbn [sized]. unfold small. rewrite !zeros_len.
  do 2 (split; [repeat split; lia|]). split; [reflexivity|]. split; [right; split; [reflexivity|left; split; [lia|reflexivity]]|]. unfold overlap. lia.
Qed.
Lemma phases_case : exists I c, builtin I /\ init_extension_field (lambda I) = Ok c /\
  table (num_rounds I) (num_parties I) (digest_size I) (repeat (repeat (zeros (digest_size I)) (num_parties I)) (num_rounds I)) /\
  column (num_rounds I) (key_size (i_aes I)) (repeat (zeros (key_size (i_aes I))) (num_rounds I)).
Proof.
  assert (X : forall k l, column k l (repeat (zeros l) k)) by (intros k l; split; [apply repeat_length|]; apply Forall_forall; intros x Hx; apply repeat_spec in Hx; subst x; apply zeros_len).
  exists (nth 1 instances (mkInst (mkAes 0 0 0 0) 0 0 0 0 0 0 0 0)). destruct (builtin_inst_ok (nth 1 instances (mkInst (mkAes 0 0 0 0) 0 0 0 0 0 0 0 0)) ltac:(exists 1%Z; reflexivity)) as [c OK].
  exists c. split; [exists 1%Z; reflexivity|]. split; [exact (io_field _ _ _ OK)|]. split; [|apply X]. split; [apply repeat_length|]. apply Forall_forall. intros x Hx. apply repeat_spec in Hx. subst x. apply X.
Qed.
