(** KeccakP1600_Initialize, AddByte and Permute_24rounds of keccak/avx2, from call to return *)
From Coq Require Import Arith NArith ZArith String List Bool Lia.
From Verif Require Import Prelude SpongeModel SpongeFacts KeccakModel KeccakFacts KeccakBytes SnpMem SnpLayout SnpSim Opt64Model Opt64Facts X86Model Avx2Code Avx2Round Avx2Perm Avx2Mem Avx2Facts.
Import ListNotations.

(** *** within B steps execution comes to a machine with property Q *)
Definition leads (B : nat) (M : machine) (Q : machine -> Prop) : Prop := exists k M', k <= B /\ reach k M M' /\ Q M'.
Lemma leads_S B M M1 (Q : machine -> Prop) : step code constants M = Ok (Next M1) -> leads B M1 Q -> leads (S B) M Q.
Proof. intros E (k & M' & L & H & q). exists (S k), M'. split; [lia|]. split; [eapply reach_S; eassumption|exact q]. Qed.
Lemma leads_reach k B M M1 (Q : machine -> Prop) : reach k M M1 -> leads B M1 Q -> leads (k + B) M Q.
Proof. intros E (j & M' & L & H & q). exists (k + j), M'. split; [lia|]. split; [eapply reach_trans; eassumption|exact q]. Qed.
Lemma leads_bind B1 B2 M (Q1 Q : machine -> Prop) : leads B1 M Q1 -> (forall M1, Q1 M1 -> leads B2 M1 Q) -> leads (B1 + B2) M Q.
Proof. intros (k & M1 & L & H & q) N. destruct (N M1 q) as (j & M' & L' & H' & q'). exists (k + j), M'. split; [lia|]. split; [eapply reach_trans; eassumption|exact q']. Qed.
Lemma leads_0 B M (Q : machine -> Prop) : Q M -> leads B M Q.
Proof. intros q. exists 0, M. split; [lia|]. split; [apply reach_refl|exact q]. Qed.
Lemma leads_weak B B' M (Q : machine -> Prop) : leads B M Q -> B <= B' -> leads B' M Q.
Proof. intros (k & M1 & L & H & q) N. exists k, M1. split; [lia|]. split; assumption. Qed.
Lemma leads_run B M (Q : machine -> Prop) f : leads B M (fun M' => exists M'', step code constants M' = Ok (Done M'') /\ Q M'') -> B < f -> exists M'', run code constants f M = Ok M'' /\ Q M''.
Proof. intros (k & M' & L & H & M'' & E & q) N. exists M''. split; [|exact q]. eapply run_reach; [exact H|exact E|lia]. Qed.
(** one instruction *)
Ltac ls := eapply leads_S; [unfold step; cbn [pc]; fetch; labels; xcbn|].

Lemma lane_list_lanes A : lane_list A = lanes_list A.
Proof. reflexivity. Qed.
Lemma rel_b64 m st : rel m st -> Forall b64 (lane_list (copy_from_state st)).
Proof. intros H. apply from_b64. apply (rel_facts m st H). Qed.
Lemma ylay_len A ys : List.length ys = 9 -> List.length (ylay A ++ ys) = 16.
Proof. intros H. rewrite app_length, H. reflexivity. Qed.
Definition upper (y : list v4) : list v4 := map (fun v => V4 (w0 v) (w1 v) 0 0) y.
Lemma upper_len y : List.length (upper y) = List.length y.
Proof. apply map_length. Qed.
Lemma permute_24 st : permute_24rounds st = copy_to_state (rounds24 (copy_from_state st)).
Proof. reflexivity. Qed.
Lemma b64_rounds24 st : is_bytes st -> List.length st = 200 -> Forall b64 (lane_list (rounds24 (copy_from_state st))).
Proof. intros H L. apply (rounds24_rep _ _ (from_rep st H L)). Qed.

(** from the label of KeccakP1600_Permute_24rounds to its ret *)
Lemma permute_leads m st va vb vc vd vs v8 v9 v10 c z s md y : rel m st -> List.length y = 16 ->
  leads 2700 (mkM 366 (mkG va vb vc vd vs (Vp Bst 0) v8 v9 v10) y c z s m md)
    (fun M => exists G' y' c' z' m', M = mkM 389 G' y' c' z' s m' md /\ rbx G' = vb /\ List.length y' = 16 /\ rel m' (permute_24rounds st)).
Proof.
  intros H Ly. eapply leads_weak.
  - do 7 (ls; [reflexivity|]).
    destruct (loads m st 373 (Vi 24) vb vc vd vs (Vp Bro 96) (Vp Bro 288) (Vp Bro 384) c z s md (upper y) H ltac:(rewrite upper_len; exact Ly) ltac:(repeat split; vm_compute; reflexivity)) as (ys & L & E).
    eapply leads_reach; [exact E|]. clear E. ls; [reflexivity|].
    destruct (keccak_call (copy_from_state st) 24 vb vc vd vs (Vp Bst 96) c z 381 s m md ys (rel_b64 m st H) L ltac:(lia) ltac:(lia)) as (ys' & z' & v10' & L' & E).
    eapply leads_reach; [exact E|]. clear E. cbn [Nat.sub]. rewrite <- rounds24_eq.
    eapply leads_reach; [apply (stores (rounds24 (copy_from_state st)) m 381); [apply (rel_facts m st H)|repeat split; vm_compute; reflexivity]|].
    ls; [reflexivity|]. apply (leads_0 0). eexists _, _, _, _, _. split; [reflexivity|]. split; [reflexivity|]. split; [fold (upper (ylay (rounds24 (copy_from_state st)) ++ ys')); rewrite upper_len; apply ylay_len; exact L'|]. rewrite permute_24. apply rel_memory.
  - lia.
Qed.

Lemma init_leads m va vb vc vd vs v8 v9 v10 c z s md y0 y : List.length m = 200 ->
  leads 10 (mkM 0 (mkG va vb vc vd vs (Vp Bst 0) v8 v9 v10) (y0 :: y) c z s m md)
    (fun M => exists G' y' c' z', M = mkM 9 G' y' c' z' s (repeat 0%N 200) md /\ rbx G' = vb).
Proof.
  intros L. assert (W : forall k (P d : bytes), List.length P = k -> k + List.length d <= 200 -> forall z, z = Z.of_nat k -> mwrite (P ++ skipn k m) z d = Ok ((P ++ d) ++ skipn (k + List.length d) m)) by (intros; apply write_next; lia).
  assert (W0 : forall d z, z = 0%Z -> List.length d = 32 -> mwrite m z d = Ok (d ++ skipn 32 m)) by (intros d z' -> Ld; refine (eq_trans (W 0 [] d eq_refl _ 0%Z eq_refl) _); [lia|rewrite Ld; reflexivity]).
  eapply leads_weak.
  - ls; [reflexivity|].
    ls; [xcbn2; al; xcbn1; unfold vmap2, vop_fun, w_xor; cbn [w0 w1 w2 w3]; rewrite !N.lxor_nilpotent; reflexivity|].
    ls; [xcbn2; al; xcbn1; rewrite W0 by reflexivity; xcbn1; reflexivity|].
    ls; [xcbn2; al; xcbn1; rewrite (W 32) by (reflexivity || (cbn; lia)); xcbn1; reflexivity|].
    ls; [xcbn2; al; xcbn1; rewrite (W 64) by (reflexivity || (cbn; lia)); xcbn1; reflexivity|].
    ls; [xcbn2; al; xcbn1; rewrite (W 96) by (reflexivity || (cbn; lia)); xcbn1; reflexivity|].
    ls; [xcbn2; al; xcbn1; rewrite (W 128) by (reflexivity || (cbn; lia)); xcbn1; reflexivity|].
    ls; [xcbn2; al; xcbn1; rewrite (W 160) by (reflexivity || (cbn; lia)); xcbn1; reflexivity|].
    ls; [xcbn2; al; xcbn1; rewrite (W 192) by (reflexivity || (cbn; lia)); xcbn1; reflexivity|].
    rewrite skipn_all2 by (cbn; lia). rewrite app_nil_r. apply (leads_0 0). eexists _, _, _, _. split; reflexivity.
  - lia.
Qed.
