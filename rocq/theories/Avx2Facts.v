(** Runs of the code of keccak/avx2: __KeccakF1600 as a call, the 24 rounds *)
From Coq Require Import Arith NArith ZArith String List Bool Lia.
From Verif Require Import Prelude SpongeModel SpongeFacts KeccakModel KeccakFacts KeccakBytes SnpMem SnpLayout SnpSim Opt64Model Opt64Facts X86Model Avx2Code Avx2Round Avx2Perm Avx2Mem.
Import ListNotations.

(** *** execution *)
Lemma run_reach k f M M' M'' : reach k M M' -> step code constants M' = Ok (Done M'') -> k < f -> run code constants f M = Ok M''.
Proof. intros H E L. replace f with (k + (f - k)) by lia. rewrite H. destruct (f - k) as [|n] eqn:F; [lia|]. cbn [run]. rewrite E. reflexivity. Qed.

(** __KeccakF1600 with 24 rounds, from its label to its return *)
Lemma keccak_call A n vb vc vd vs vt c z q s ms md ys : Forall b64 (lane_list A) -> List.length ys = 9 -> n <= 24 -> 0 < n ->
  exists ys' z' v10, List.length ys' = 9 /\
    reach (109 * n + 2) (mkM 255 (mkG (Vi (N.of_nat n)) vb vc vd vs vt (Vp Bro 96) (Vp Bro 288) (Vp Bro (384 + 32 * Z.of_nat (24 - n)))) (ylay A ++ ys) c z (SR q :: s) ms md)
      (mkM q (mkG (Vi 0) vb vc vd vs vt (Vp Bro 96) (Vp Bro 288) v10) (ylay (fold_left (fun A i => round i A) (seq (24 - n) n) A) ++ ys') c z' s ms md).
Proof.
  intros HA L Hn H0. destruct n as [|n]; [lia|]. destruct (rounds_loop n (24 - S n) A vb vc vd vs vt c z (SR q :: s) ms md ys HA L ltac:(lia)) as (ys' & z' & L' & E).
  exists ys', z'. eexists. split; [exact L'|]. replace (109 * S n + 2) with (S (109 * S n + 1)) by lia. xs; [reflexivity|]. eapply reach_trans; [exact E|].
  xs; [reflexivity|]. apply reach_eq. reflexivity.
Qed.

(** the lanes of the state, as vmovdqu reads them *)
Lemma ylay_mem m st : rel m st -> let w k := le_word (slice m (8 * k) 8) in
  ylay (copy_from_state st) = [V4 (w 0) (w 0) (w 0) (w 0); V4 (w 1) (w 2) (w 3) (w 4); V4 (w 5) (w 6) (w 7) (w 8); V4 (w 9) (w 10) (w 11) (w 12); V4 (w 13) (w 14) (w 15) (w 16); V4 (w 17) (w 18) (w 19) (w 20); V4 (w 21) (w 22) (w 23) (w 24)].
Proof.
  intros H w. pose proof (fun j => rel_lane m st j H) as E. unfold w.
  pose proof (E 0 ltac:(lia)) as E0. pose proof (E 1 ltac:(lia)) as E1. pose proof (E 2 ltac:(lia)) as E2. pose proof (E 3 ltac:(lia)) as E3. pose proof (E 4 ltac:(lia)) as E4. pose proof (E 5 ltac:(lia)) as E5. pose proof (E 6 ltac:(lia)) as E6. pose proof (E 7 ltac:(lia)) as E7.
  pose proof (E 8 ltac:(lia)) as E8. pose proof (E 9 ltac:(lia)) as E9. pose proof (E 10 ltac:(lia)) as E10. pose proof (E 11 ltac:(lia)) as E11. pose proof (E 12 ltac:(lia)) as E12. pose proof (E 13 ltac:(lia)) as E13. pose proof (E 14 ltac:(lia)) as E14. pose proof (E 15 ltac:(lia)) as E15.
  pose proof (E 16 ltac:(lia)) as E16. pose proof (E 17 ltac:(lia)) as E17. pose proof (E 18 ltac:(lia)) as E18. pose proof (E 19 ltac:(lia)) as E19. pose proof (E 20 ltac:(lia)) as E20. pose proof (E 21 ltac:(lia)) as E21. pose proof (E 22 ltac:(lia)) as E22. pose proof (E 23 ltac:(lia)) as E23. pose proof (E 24 ltac:(lia)) as E24.
  cbn [word_of nth] in *. rewrite E0, E1, E2, E3, E4, E5, E6, E7, E8, E9, E10, E11, E12, E13, E14, E15, E16, E17, E18, E19, E20, E21, E22, E23, E24. reflexivity.
Qed.

Ltac closed_z := repeat match goal with |- context [Z.to_nat ?z] => let v := eval vm_compute in (Z.to_nat z) in change (Z.to_nat z) with v end.
Ltac xcbn1 := cbn [load load256 load128 load_at load_at block get_vop gety sety bind exec gp ym fc fz stk mst mda pc getr setr set_gp set_ym set_flags set_stk set_pc rax rbx rcx rdx rsi rdi r8 r9 r10 read_op write_op low alu holds ea bits_of_size bytes_of_size negb w0 w1 w2 w3 get set upd nth_error List.length Nat.ltb Nat.leb app map store store256 store_at].
Ltac al := repeat match goal with |- context [aligned ?b ?o ?a] => let v := eval vm_compute in (aligned b o a) in change (aligned b o a) with v end.
Ltac xcbn2 := xcbn1; unfold load, load256, load128, load_at, store, store256, store_at, block, check_aligned; xcbn1.
Ltac st_load := repeat (rewrite mread_ok by lia; cbn [bind]); closed_z.
(** the seven loads *)
Lemma loads m st p0 va vb vc vd vs v8 v9 v10 c z s md y (H : rel m st) : List.length y = 16 ->
  (nth_error code p0 = Some (In (Vpbroadcastq (Ab RDI (-96)) 0)) /\ nth_error code (S p0) = Some (In (Vmovdqu (Ab RDI (-88)) 1)) /\ nth_error code (S (S p0)) = Some (In (Vmovdqu (Ab RDI (-56)) 2)) /\
   nth_error code (S (S (S p0))) = Some (In (Vmovdqu (Ab RDI (-24)) 3)) /\ nth_error code (S (S (S (S p0)))) = Some (In (Vmovdqu (Ab RDI 8) 4)) /\ nth_error code (S (S (S (S (S p0))))) = Some (In (Vmovdqu (Ab RDI 40) 5)) /\
   nth_error code (S (S (S (S (S (S p0)))))) = Some (In (Vmovdqu (Ab RDI 72) 6))) ->
  exists ys, List.length ys = 9 /\
  reach 7 (mkM p0 (mkG va vb vc vd vs (Vp Bst 96) v8 v9 v10) y c z s m md) (mkM (S (S (S (S (S (S (S p0))))))) (mkG va vb vc vd vs (Vp Bst 96) v8 v9 v10) (ylay (copy_from_state st) ++ ys) c z s m md).
Proof.
  intros L (C0 & C1 & C2 & C3 & C4 & C5 & C6). pose proof (rel_facts m st H) as (Lm & _). do 16 (destruct y as [|? y]; [discriminate L|]). destruct y; [|discriminate L].
  eexists. split; cycle 1.
  - rewrite (ylay_mem m st H).
    assert (G : forall p i, nth_error code p = Some i -> get code p = Ok i) by (intros p i E; unfold get; rewrite E; reflexivity).
    eapply reach_S; [unfold step; cbn [pc]; rewrite (G _ _ C0); xcbn2; st_load; xcbn2; reflexivity|].
    eapply reach_S; [unfold step; cbn [pc]; rewrite (G _ _ C1); xcbn2; st_load; xcbn2; reflexivity|].
    eapply reach_S; [unfold step; cbn [pc]; rewrite (G _ _ C2); xcbn2; st_load; xcbn2; reflexivity|].
    eapply reach_S; [unfold step; cbn [pc]; rewrite (G _ _ C3); xcbn2; st_load; xcbn2; reflexivity|].
    eapply reach_S; [unfold step; cbn [pc]; rewrite (G _ _ C4); xcbn2; st_load; xcbn2; reflexivity|].
    eapply reach_S; [unfold step; cbn [pc]; rewrite (G _ _ C5); xcbn2; st_load; xcbn2; reflexivity|].
    eapply reach_S; [unfold step; cbn [pc]; rewrite (G _ _ C6); xcbn2; st_load; xcbn2; reflexivity|].
    apply reach_eq. cbn [app]. reflexivity.
  - reflexivity.
Qed.
(** the seven stores *)
Lemma stores A m p0 va vb vc vd vs v8 v9 v10 c z s md ys : List.length m = 200 ->
  (nth_error code p0 = Some (In (Vmovq_st 0 (Ab RDI (-96)))) /\ nth_error code (S p0) = Some (In (Vmovdqu_st 1 (Ab RDI (-88)))) /\ nth_error code (S (S p0)) = Some (In (Vmovdqu_st 2 (Ab RDI (-56)))) /\
   nth_error code (S (S (S p0))) = Some (In (Vmovdqu_st 3 (Ab RDI (-24)))) /\ nth_error code (S (S (S (S p0)))) = Some (In (Vmovdqu_st 4 (Ab RDI 8))) /\ nth_error code (S (S (S (S (S p0))))) = Some (In (Vmovdqu_st 5 (Ab RDI 40))) /\
   nth_error code (S (S (S (S (S (S p0)))))) = Some (In (Vmovdqu_st 6 (Ab RDI 72)))) ->
  reach 7 (mkM p0 (mkG va vb vc vd vs (Vp Bst 96) v8 v9 v10) (ylay A ++ ys) c z s m md) (mkM (S (S (S (S (S (S (S p0))))))) (mkG va vb vc vd vs (Vp Bst 96) v8 v9 v10) (ylay A ++ ys) c z s (memory A) md).
Proof.
  intros L (C0 & C1 & C2 & C3 & C4 & C5 & C6).
  assert (G : forall p i, nth_error code p = Some i -> get code p = Ok i) by (intros p i E; unfold get; rewrite E; reflexivity).
  assert (W : forall k (P d : bytes), List.length P = k -> k + List.length d <= 200 -> forall z, z = Z.of_nat k -> mwrite (P ++ skipn k m) z d = Ok ((P ++ d) ++ skipn (k + List.length d) m)) by (intros; apply write_next; lia).
  assert (W0 : forall d z, z = 0%Z -> List.length d = 8 -> mwrite m z d = Ok (d ++ skipn 8 m)) by (intros d z' -> Ld; refine (eq_trans (W 0 [] d eq_refl _ 0%Z eq_refl) _); [lia|rewrite Ld; reflexivity]).
  unfold ylay. cbn [app].
  eapply reach_S; [unfold step; cbn [pc]; rewrite (G _ _ C0); xcbn2; rewrite W0 by (reflexivity || apply le_bytes_length); xcbn1; reflexivity|].
  assert (L4 : forall a b c d, List.length (le_bytes 8 a ++ le_bytes 8 b ++ le_bytes 8 c ++ le_bytes 8 d) = 32) by (intros; rewrite !app_length, !le_bytes_length; reflexivity).
  assert (SS : forall P P' : bytes, List.length (P ++ P') = List.length P + List.length P') by (intros; apply app_length).
  Ltac one_store W L4 := unfold step; cbn [pc]; match goal with G : forall p i, nth_error code p = Some i -> get code p = Ok i, C : nth_error code ?p = Some _ |- context [get code ?p] => rewrite (G _ _ C) end; xcbn2; rewrite W by (rewrite ?app_length, ?le_bytes_length; reflexivity || cbn; lia); rewrite L4; xcbn1; reflexivity.
  eapply reach_S; [one_store (W 8) L4|].
  eapply reach_S; [one_store (W 40) L4|].
  eapply reach_S; [one_store (W 72) L4|].
  eapply reach_S; [one_store (W 104) L4|].
  eapply reach_S; [one_store (W 136) L4|].
  eapply reach_S; [one_store (W 168) L4|].
  apply reach_eq. cbn [Nat.add]. rewrite skipn_all2 by lia. rewrite app_nil_r. unfold memory, words. cbn [map concat]. rewrite <- !app_assoc. reflexivity.
Qed.
