(** Restatements of earlier lemmas for PropHash: four-way expansion, parameter sets, containers. *)
From Coq Require Import Arith NArith ZArith List Bool Lia.
From Verif Require Import Prelude Instances HashModel TreeModel TreeSpec ContainerModel ListSum BanquetModel BanquetHash BanquetApi.
Import ListNotations.

Lemma expand_four H salt rep s0 s1 s2 s3 n ss : ss <= 32 -> length s0 = ss -> length s1 = ss -> length s2 = ss -> length s3 = ss ->
  exists c0 c1 c2 c3,
  expand_seed_x4 H salt rep (s0 ++ s1 ++ s2 ++ s3 ++ zeros (8 * ss), [])
    [(SData (0 * ss) ss, SData (4 * ss) (2 * ss)); (SData (1 * ss) ss, SData (6 * ss) (2 * ss));
     (SData (2 * ss) ss, SData (8 * ss) (2 * ss)); (SData (3 * ss) ss, SData (10 * ss) (2 * ss))] n =
  Ok (s0 ++ s1 ++ s2 ++ s3 ++ c0 ++ c1 ++ c2 ++ c3, []) /\
  (forall s k c, In (s, k, c) [(s0, n, c0); (s1, n + 1, c1); (s2, n + 2, c2); (s3, n + 3, c3)] ->
     expand_seed H salt rep (s ++ zeros (2 * ss), []) (SData 0 ss) k (SData ss (2 * ss)) = Ok (s ++ c, []) /\ length c = 2 * ss).
Proof.
  intros Hs L0 L1 L2 L3. set (cc := fun s k => child_seed H salt rep s k false ++ child_seed H salt rep s k true).
  exists (cc s0 n), (cc s1 (n + 1)), (cc s2 (n + 2)), (cc s3 (n + 3)).
  pose proof (expand4_eq H salt rep s0 s1 s2 s3 n ss Hs L0 L1 L2 L3) as E. cbv zeta in E. split.
  - assert (Z : s0 ++ s1 ++ s2 ++ s3 ++ zeros (8 * ss) = concat ([s0; s1; s2; s3] ++ repeat (zeros ss) 8)).
    { cbn [app concat repeat]. unfold zeros. rewrite app_nil_r, <- !repeat_app. do 5 f_equal. lia. }
    rewrite Z, E. unfold cc. cbn [concat]. rewrite app_nil_r, <- !app_assoc. reflexivity.
  - assert (Q : forall s k, length s = ss -> expand_seed H salt rep (s ++ zeros (2 * ss), []) (SData 0 ss) k (SData ss (2 * ss)) = Ok (s ++ cc s k, []) /\ length (cc s k) = 2 * ss).
    { intros s k Ls. split; [rewrite <- Ls; apply (expand1_eq H salt rep s k); lia|]. unfold cc, child_seed. rewrite app_length, !stream_length. lia. }
    intros s k c [X|[X|[X|[X|[]]]]]; injection X as <- <- <-; apply Q; assumption.
Qed.
Lemma container_get (A : Type) (c : container A) r p : k_ok c -> r < k_reps c -> p < k_parties c -> exists v, k_get c r p = Ok v /\ length v = k_size c.
Proof. intros K R P. destruct (k_get_ok c r p K R P) as [E L]. eauto. Qed.
Lemma container_repetition (A : Type) (c : container A) r : k_ok c -> r < k_reps c ->
  exists vs, k_get_repetition c r = Ok vs /\ length vs = k_parties c /\ forall p, p < k_parties c -> (exists v, nth_error vs p = Some v /\ k_get c r p = Ok v).
Proof.
  intros K R. exists (map (fun p => slice (k_data c) (k_offset c r p) (k_size c)) (seq 0 (k_parties c))). rewrite k_repetition_eq. split; [|split].
  - apply mapM_seq. intros p Hp. apply k_get_ok; assumption.
  - rewrite map_length. apply seq_length.
  - intros p Hp. eexists. split; [|apply k_get_ok; assumption]. rewrite nth_error_map, nth_error_seq by exact Hp. reflexivity.
Qed.
Lemma container_spans (A : Type) (c : container A) r p : p < k_parties c -> nth_error (k_repetition_offsets c r) p = Some (k_offset c r p).
Proof. intros Hp. unfold k_repetition_offsets. rewrite nth_error_map, nth_error_seq by exact Hp. reflexivity. Qed.
