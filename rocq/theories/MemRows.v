(** The loops over parties write the slots of one repetition *)
From Coq Require Import Arith NArith List Bool Lia.
From Verif Require Import Prelude HashModel TreeModel Instances ContainerModel MemModel BanquetModel MemBase MemAes FreeSpec.
Import ListNotations.

Section Rows.
Variables (R n sz rep : nat).
Hypothesis Hrep : rep < R.
Variable f0 : nat -> nat -> bytes.
Local Notation row_holds c acc := (holds c R n sz (rowfill f0 rep acc)).

Lemma row_start c : holds c R n sz f0 -> row_holds c [].
Proof. intros H. eapply holds_ext; [exact H|]. intros r p _ _. rewrite rowfill_nil. reflexivity. Qed.
Lemma row_write c acc v : row_holds c acc -> length acc < n -> length v = sz ->
  exists c', m_copy c rep (length acc) v = Ok c' /\ row_holds c' (acc ++ [v]).
Proof.
  intros H L Lv. destruct (holds_fill _ _ _ _ _ rep (length acc) v H Hrep L Lv) as (c' & E & H'). exists c'. split; [exact E|].
  eapply holds_ext; [exact H'|]. intros r p _ _. apply rowfill_snoc.
Qed.
Lemma row_write4 c acc vs idx : row_holds c acc -> length acc + 4 <= n -> length vs = 4 -> Forall (fun v => length v = sz) vs ->
  (forall i, i < 4 -> idx i = length acc + i) -> exists c', m_copy4 c rep idx vs = Ok c' /\ row_holds c' (acc ++ vs).
Proof.
  intros H L Lv F HI. destruct vs as [|v0 [|v1 [|v2 [|v3 [|? ?]]]]]; cbn [length] in Lv; try lia.
  apply Forall_cons_iff in F as [L0 F]. apply Forall_cons_iff in F as [L1 F]. apply Forall_cons_iff in F as [L2 F]. apply Forall_cons_iff in F as [L3 _].
  unfold m_copy4. cbn [seq foldM]. unfold get. cbn [nth_error bind]. rewrite !HI by lia.
  replace (length acc + 0) with (length acc) by lia.
  destruct (row_write c acc v0 H) as (c1 & E1 & H1); [lia|assumption|]. rewrite E1. cbn [bind].
  replace (length acc + 1) with (length (acc ++ [v0])) by (rewrite app_length; reflexivity).
  destruct (row_write c1 (acc ++ [v0]) v1 H1) as (c2 & E2 & H2); [rewrite app_length; cbn; lia|assumption|]. rewrite E2. cbn [bind].
  rewrite <- app_assoc in H2. cbn [app] in H2.
  replace (length acc + 2) with (length (acc ++ [v0; v1])) by (rewrite app_length; reflexivity).
  destruct (row_write c2 (acc ++ [v0; v1]) v2 H2) as (c3 & E3 & H3); [rewrite app_length; cbn; lia|assumption|]. rewrite E3. cbn [bind].
  rewrite <- app_assoc in H3. cbn [app] in H3.
  replace (length acc + 3) with (length (acc ++ [v0; v1; v2])) by (rewrite app_length; reflexivity).
  destruct (row_write c3 (acc ++ [v0; v1; v2]) v3 H3) as (c4 & E4 & H4); [rewrite app_length; cbn; lia|assumption|]. rewrite E4. cbn [bind].
  rewrite <- app_assoc in H4. cbn [app] in H4. exists c4. auto.
Qed.
(** one slot per iteration *)
Lemma row_loop f f' c : holds c R n sz f0 -> (forall p, p < n -> sim eq (f p) (f' p)) ->
  (forall p v, p < n -> f p = Ok v -> length v = sz) ->
  sim (fun row c' => length row = n /\ row_holds c' row) (mapM f (seq 0 n)) (foldM (fun c p => do v <- f' p; m_copy c rep p v) (seq 0 n) c).
Proof.
  intros Hc HF HL.
  apply (sim_loop (fun acc c => row_holds c acc) f (fun c p => do v <- f' p; m_copy c rep p v) n 0 [] c); [|reflexivity|apply row_start, Hc].
  intros acc st Hp Hacc. destruct (f (length acc)) as [v|e|r|] eqn:E.
  - pose proof (HF (length acc) ltac:(lia)) as S1. rewrite E in S1. destruct S1 as (v' & E' & <-). rewrite E'. cbn [bind].
    destruct (row_write st acc v Hacc) as (c' & Ec & Hc'); [lia|apply (HL (length acc)); [lia|exact E]|]. rewrite Ec. apply sim_ok. exact Hc'.
  - pose proof (HF (length acc) ltac:(lia)) as S1. rewrite E in S1. cbn in S1 |- *. rewrite S1. reflexivity.
  - exact Logic.I.
  - pose proof (HF (length acc) ltac:(lia)) as S1. rewrite E in S1. cbn in S1 |- *. rewrite S1. reflexivity.
Qed.
(** four slots per iteration, then one *)
Lemma row_by4 f4 f1 g4 g1 c : holds c R n sz f0 ->
  (forall acc st, length acc + 4 <= n -> row_holds st acc ->
     sim (fun vs st' => length vs = 4 /\ row_holds st' (acc ++ vs)) (f4 (length acc)) (g4 st (length acc))) ->
  (forall acc st, 4 * (n / 4) <= length acc < n -> row_holds st acc -> sim (fun v st' => row_holds st' (acc ++ [v])) (f1 (length acc)) (g1 st (length acc))) ->
  sim (fun row c' => length row = n /\ row_holds c' row) (by4 n f4 f1) (loop4 n g4 g1 c).
Proof.
  intros Hc H4 H1. unfold by4, loop4.
  assert (D : 4 * (n / 4) <= n) by (apply Nat.mul_div_le; lia).
  assert (S4 : forall k s acc st, length acc = 4 * s -> 4 * (s + k) <= n -> row_holds st acc ->
    sim (fun xs st' => length (acc ++ concat xs) = 4 * (s + k) /\ row_holds st' (acc ++ concat xs))
      (mapM f4 (map (fun b => 4 * b) (seq s k))) (foldM g4 (map (fun b => 4 * b) (seq s k)) st)).
  { induction k as [|k IH]; intros s acc st L Hk Hst; cbn [seq map mapM foldM].
    - apply sim_ok. cbn [concat]. rewrite app_nil_r. split; [lia|exact Hst].
    - pose proof (H4 acc st ltac:(lia) Hst) as S1. rewrite L in S1. eapply sim_bind; [exact S1|]. intros vs st' _ [Lv Hst'].
      pose proof (IH (S s) (acc ++ vs) st' ltac:(rewrite app_length; lia) ltac:(lia) Hst') as S2.
      unfold sim in S2 |- *. destruct (mapM f4 (map (fun b => 4 * b) (seq (S s) k))) as [bs|e|r|]; cbn [bind]; auto.
      destruct S2 as (st2 & -> & E2 & H2). exists st2. split; [reflexivity|]. cbn [concat]. rewrite <- app_assoc in E2, H2. split; [lia|exact H2]. }
  eapply sim_bind; [apply (S4 (n / 4) 0 [] c); [reflexivity|lia|apply row_start, Hc]|].
  intros xs st _ [L Hst]. cbn [app] in *.
  pose proof (sim_loop (fun acc c => row_holds c acc) f1 g1 (n - 4 * (n / 4)) (4 * (n / 4)) (concat xs) st) as SL.
  specialize (SL (fun acc st' Hl Ha => H1 acc st' ltac:(lia) Ha) ltac:(cbn [Nat.add] in L; lia) Hst).
  unfold sim in SL |- *. destruct (mapM f1 (seq (4 * (n / 4)) (n - 4 * (n / 4)))) as [ys|e|r|]; cbn [bind]; auto.
  destruct SL as (st' & -> & Ly & H'). exists st'. split; [reflexivity|]. split; [rewrite app_length; lia|exact H'].
Qed.
End Rows.
