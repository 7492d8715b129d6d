(** KeccakP1600_Permute_12rounds and KeccakP1600_Permute_Nrounds of keccak/avx2 *)
From Coq Require Import Arith NArith ZArith String List Bool Lia.
From Verif Require Import Prelude SpongeModel SpongeFacts KeccakSpec KeccakModel KeccakFacts KeccakBytes SnpMem SnpLayout SnpSim Opt64Model Opt64Facts X86Model Avx2Code Avx2Round Avx2Perm Avx2Mem Avx2Facts Avx2Calls Avx2Add StateSpec Opt64MoreFacts.
Import ListNotations.

Lemma keccak_call_n A n vb vc vd vs vt c z q s ms md ys : Forall b64 (lane_list A) -> List.length ys = 9 -> n <= 24 -> 0 < n ->
  exists ys' z' v10, List.length ys' = 9 /\
    reach (109 * n + 2) (mkM 255 (mkG (Vi (N.of_nat n)) vb vc vd vs vt (Vp Bro 96) (Vp Bro 288) (Vp Bro (384 + 32 * Z.of_nat (24 - n)))) (ylay A ++ ys) c z (SR q :: s) ms md)
      (mkM q (mkG (Vi 0) vb vc vd vs vt (Vp Bro 96) (Vp Bro 288) v10) (ylay (rounds_n n A) ++ ys') c z' s ms md).
Proof. apply keccak_call. Qed.

Lemma permute12_leads m st va vb vc vd vs v8 v9 v10 c z s md y : rel m st -> List.length y = 16 ->
  leads 2700 (mkM 390 (mkG va vb vc vd vs (Vp Bst 0) v8 v9 v10) y c z s m md)
    (fun M => exists G' y' c' z' m', M = mkM 413 G' y' c' z' s m' md /\ rbx G' = vb /\ List.length y' = 16 /\ rel m' (permute_n 12 st)).
Proof.
  intros H Ly. eapply leads_weak.
  - do 7 (ls; [reflexivity|]).
    destruct (loads m st 397 (Vi 12) vb vc vd vs (Vp Bro 96) (Vp Bro 288) (Vp Bro 768) c z s md (upper y) H ltac:(rewrite upper_len; exact Ly) ltac:(repeat split; vm_compute; reflexivity)) as (ys & L & E).
    eapply leads_reach; [exact E|]. clear E. ls; [reflexivity|].
    destruct (keccak_call_n (copy_from_state st) 12 vb vc vd vs (Vp Bst 96) c z 405 s m md ys (rel_b64 m st H) L ltac:(lia) ltac:(lia)) as (ys' & z' & v10' & L' & E).
    eapply leads_reach; [exact E|]. clear E. remember (rounds_n 12 (copy_from_state st)) as X eqn:EX.
    eapply leads_reach; [apply (stores X m 405); [apply (rel_facts m st H)|repeat split; vm_compute; reflexivity]|].
    ls; [reflexivity|]. apply (leads_0 0). eexists _, _, _, _, _. split; [reflexivity|]. split; [reflexivity|]. split; [fold (upper (ylay X ++ ys')); rewrite upper_len; apply ylay_len; exact L'|]. unfold permute_n. rewrite <- EX. apply rel_memory.
  - lia.
Qed.
Lemma shl5 n : n <= 24 -> (N.shiftl (N.of_nat n) 5 mod 2 ^ 64)%N = N.of_nat (32 * n).
Proof. intros H. rewrite N.shiftl_mul_pow2. change (2 ^ 5)%N with 32%N. rewrite N.mod_small by lia. lia. Qed.
Lemma sx_small k : k <= 2000 -> sx (N.of_nat k) = Z.of_nat k.
Proof. intros H. unfold sx. destruct (N.ltb_spec (N.of_nat k) (2 ^ 63)) as [A|A]; lia. Qed.
Lemma permuteN_leads n m st va vb vc vd v8 v9 v10 c z s md y : 0 < n <= 24 -> rel m st -> List.length y = 16 ->
  leads 2700 (mkM 414 (mkG va vb vc vd (Vi (N.of_nat n)) (Vp Bst 0) v8 v9 v10) y c z s m md)
    (fun M => exists G' y' c' z' m', M = mkM 439 G' y' c' z' s m' md /\ rbx G' = vb /\ rel m' (permute_n n st)).
Proof.
  intros Hn H Ly. eapply leads_weak.
  - do 5 (ls; [reflexivity|]). ls; [rewrite shl5 by lia; reflexivity|]. ls; [rewrite sx_small by lia; replace (1152 - Z.of_nat (32 * n))%Z with (384 + 32 * Z.of_nat (24 - n))%Z by lia; reflexivity|].
    do 2 (ls; [reflexivity|]).
    eassert (X : _); [|destruct (loads m st 423 (Vi (N.of_nat n)) vb vc vd (Vi (N.of_nat (32 * n))) (Vp Bro 96) (Vp Bro 288) (Vp Bro (384 + 32 * Z.of_nat (24 - n))) None None s md (upper y) H ltac:(rewrite upper_len; exact Ly) X) as (ys & L & E)]; [repeat split; vm_compute; reflexivity|]. clear X.
    eapply leads_reach; [exact E|]. clear E. ls; [reflexivity|].
    destruct (keccak_call_n (copy_from_state st) n vb vc vd (Vi (N.of_nat (32 * n))) (Vp Bst 96) None None 431 s m md ys (rel_b64 m st H) L ltac:(lia) ltac:(lia)) as (ys' & z' & v10' & L' & E).
    eapply leads_reach; [exact E|]. clear E. remember (rounds_n n (copy_from_state st)) as X eqn:EX.
    eapply leads_reach; [apply (stores X m 431); [apply (rel_facts m st H)|repeat split; vm_compute; reflexivity]|].
    ls; [reflexivity|]. apply (leads_0 0). eexists _, _, _, _, _. split; [reflexivity|]. split; [reflexivity|]. unfold permute_n. rewrite <- EX. apply rel_memory.
  - lia.
Qed.
