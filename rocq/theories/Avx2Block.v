(** One block of KeccakF1600_FastLoop_Absorb of keccak/avx2, for 17 and 21 lanes *)
From Coq Require Import Arith NArith ZArith String List Bool Lia.
From Verif Require Import Prelude SpongeModel SpongeFacts KeccakModel KeccakFacts KeccakBytes SnpMem SnpLayout SnpSim Opt64Model Opt64Facts X86Model Avx2Code Avx2Round Avx2Perm Avx2Mem Avx2Facts Avx2Calls Avx2Add.
Import ListNotations.

Lemma data_read d p z k n : z = (Z.of_nat p + Z.of_nat k)%Z -> p + k + n <= List.length d -> mread d z n = Ok (slice d (p + k) n).
Proof. intros -> H. rewrite <- Nat2Z.inj_add. apply mread_nat. exact H. Qed.
Ltac const_load := repeat match goal with |- context [mread constants ?o ?n] => let v := eval vm_compute in (mread constants o n) in replace (mread constants o n) with v by (vm_compute; reflexivity); cbn [bind] end;
  repeat match goal with |- context [le_word (?a :: ?l)] => let v := eval vm_compute in (le_word (a :: l)) in change (le_word (a :: l)) with v end.
Ltac cs := eapply leads_S; [unfold step; cbn [pc]; fetch; labels; xcbn; xcbn2; al; xcbn1; const_load; xcbn1; reflexivity|].

Ltac idx := repeat match goal with |- context [sx32 ?x] => let v := eval vm_compute in (sx32 x) in change (sx32 x) with v end; repeat match goal with |- context [N.testbit ?x 63] => let v := eval vm_compute in (N.testbit x 63) in change (N.testbit x 63) with v end.
Ltac dl d p := repeat match goal with |- context [mread d (Z.of_nat p + 0 + ?z)%Z 8] => let k := eval vm_compute in (Z.to_nat z) in rewrite (data_read d p _ k 8) by lia; cbn [bind] end.
Ltac gs d p := eapply leads_S; [unfold step; cbn [pc]; fetch; labels; xcbn; xcbn2; unfold gather1; idx; cbv beta iota; unfold load_at, block; cbn [mda mst]; dl d p; xcbn2; reflexivity|].
Ltac zs := ls; [xcbn2; unfold vmap2, vop_fun, w_xor; cbn [w0 w1 w2 w3]; rewrite !N.lxor_nilpotent; reflexivity|].

Ltac ds d p := ls; [xcbn2; rewrite (data_read d p _ 0 8) by lia; xcbn2; reflexivity|];
  ls; [xcbn2; rewrite (data_read d p _ 8 8) by lia; xcbn2; rewrite (data_read d p _ 16 8) by lia; xcbn2; rewrite (data_read d p _ 24 8) by lia; xcbn2; rewrite (data_read d p _ 32 8) by lia; xcbn2; reflexivity|].
Ltac xo := ls; [xcbn2; reflexivity|].

Lemma lane_skip d p j : lane (skipn p d) j = le_word (slice d (p + 8 * j) 8).
Proof. unfold lane, slice. f_equal. f_equal. revert d. induction p as [|p IH]; intros d; [reflexivity|]. destruct d; [rewrite !skipn_nil; reflexivity|]. cbn [skipn Nat.add]. apply IH. Qed.
Ltac in_out st d p Bs Bd Ls := repeat match goal with |- context [lane (xin st 0 _) ?i] =>
    first [rewrite (lane_of_xin_in st (skipn p d) i Bs Bd Ls) by lia; rewrite (lane_skip d p i) | rewrite (lane_of_xin_out st (skipn p d) i _ Ls) by lia] end.

Lemma xored21 st d p : is_bytes st -> is_bytes (skipn p d) -> List.length st = 200 -> 8 * 21 <= List.length (skipn p d) -> let w k := le_word (slice d (p + k) 8) in
  ylay (copy_from_state (xin st 0 (firstn (8 * 21) (skipn p d)))) =
  map (fun x => vmap2 w_xor (fst x) (snd x)) (combine (ylay (copy_from_state st))
    [V4 (w 0) (w 0) (w 0) (w 0); V4 (w 8) (w 16) (w 24) (w 32); V4 (w 80) (w 160) (w 40) (w 120); V4 (w 128) (w 56) 0%N (w 112); V4 (w 88) 0%N (w 64) (w 152); V4 0%N (w 136) (w 104) (w 72); V4 (w 48) (w 96) (w 144) 0%N]).
Proof.
  intros Bs Bd Ls Ld w. unfold w. clear w. unfold ylay, copy_from_state, w_xor, vmap2. cbn [l_ba l_be l_bi l_bo l_bu l_ga l_ge l_gi l_go l_gu l_ka l_ke l_ki l_ko l_ku l_ma l_me l_mi l_mo l_mu l_sa l_se l_si l_so l_su combine map fst snd w0 w1 w2 w3].
  rewrite !N.lxor_0_r. in_out st d p Bs Bd Ls. reflexivity.
Qed.
Lemma xored17 st d p : is_bytes st -> is_bytes (skipn p d) -> List.length st = 200 -> 8 * 17 <= List.length (skipn p d) -> let w k := le_word (slice d (p + k) 8) in
  ylay (copy_from_state (xin st 0 (firstn (8 * 17) (skipn p d)))) =
  map (fun x => vmap2 w_xor (fst x) (snd x)) (combine (ylay (copy_from_state st))
    [V4 (w 0) (w 0) (w 0) (w 0); V4 (w 8) (w 16) (w 24) (w 32); V4 (w 80) 0%N (w 40) (w 120); V4 (w 128) (w 56) 0%N (w 112); V4 (w 88) 0%N (w 64) 0%N; V4 0%N 0%N (w 104) (w 72); V4 (w 48) (w 96) 0%N 0%N]).
Proof.
  intros Bs Bd Ls Ld w. unfold w. clear w. unfold ylay, copy_from_state, w_xor, vmap2. cbn [l_ba l_be l_bi l_bo l_bu l_ga l_ge l_gi l_go l_gu l_ka l_ke l_ki l_ko l_ku l_ma l_me l_mi l_mo l_mu l_sa l_se l_si l_so l_su combine map fst snd w0 w1 w2 w3].
  rewrite !N.lxor_0_r. in_out st d p Bs Bd Ls. reflexivity.
Qed.

(** one block, from the label of the loop to the call of __KeccakF1600 *)
Lemma block21 st d p va vb vc vs vt v8 v9 v10 c z s m ys : is_bytes st -> is_bytes (skipn p d) -> List.length st = 200 -> 8 * 21 <= List.length (skipn p d) -> List.length ys = 9 ->
  leads 32 (mkM 461 (mkG va vb vc (Vp Bda (Z.of_nat p)) vs vt v8 v9 v10) (ylay (copy_from_state st) ++ ys) c z s m d)
    (fun M => exists ys' c' z', List.length ys' = 9 /\ M = mkM 493 (mkG (Vi 24) vb vc (Vp Bda (Z.of_nat (p + 8 * 21))) vs vt v8 v9 (Vp Bro 384)) (ylay (copy_from_state (xin st 0 (firstn (8 * 21) (skipn p d)))) ++ ys') c' z' s m d).
Proof.
  intros Bs Bd Ls Ld L. rewrite (xored21 st d p Bs Bd Ls Ld). rewrite skipn_length in Ld. do 9 (destruct ys as [|? ys]; [discriminate L|]). destruct ys; [|discriminate L].
  generalize (copy_from_state st) as A. intros A. unfold ylay. cbn [app].
  ls; [reflexivity|]. ds d p. cs. cs. gs d p.
  cs. zs. cs. gs d p.
  cs. zs. cs. gs d p.
  cs. zs. cs. gs d p.
  cs. zs. cs. gs d p.
  xo. xo. xo. xo. xo. xo. xo.
  ls; [reflexivity|]. ls; [reflexivity|]. ls; [reflexivity|].
  apply (leads_0 0). eexists _, _, _. split; cycle 1; [replace (Z.of_nat p + sx 168)%Z with (Z.of_nat (p + 8 * 21)) by (change (sx 168) with 168%Z; lia); reflexivity|reflexivity].
Qed.
Lemma block17 st d p va vb vc vs vt v8 v9 v10 c z s m ys : is_bytes st -> is_bytes (skipn p d) -> List.length st = 200 -> 8 * 17 <= List.length (skipn p d) -> List.length ys = 9 ->
  leads 33 (mkM 525 (mkG va vb vc (Vp Bda (Z.of_nat p)) vs vt v8 v9 v10) (ylay (copy_from_state st) ++ ys) c z s m d)
    (fun M => exists ys' c' z', List.length ys' = 9 /\ M = mkM 558 (mkG (Vi 24) vb vc (Vp Bda (Z.of_nat (p + 8 * 17))) vs vt v8 v9 (Vp Bro 384)) (ylay (copy_from_state (xin st 0 (firstn (8 * 17) (skipn p d)))) ++ ys') c' z' s m d).
Proof.
  intros Bs Bd Ls Ld L. rewrite (xored17 st d p Bs Bd Ls Ld). rewrite skipn_length in Ld. do 9 (destruct ys as [|? ys]; [discriminate L|]). destruct ys; [|discriminate L].
  generalize (copy_from_state st) as A. intros A. unfold ylay. cbn [app].
  ls; [reflexivity|]. ds d p.
  cs. zs. cs. gs d p.
  cs. zs. cs. gs d p.
  cs. zs. cs. gs d p.
  cs. zs. cs. gs d p.
  cs. zs. cs. gs d p.
  xo. xo. xo. xo. xo. xo. xo.
  ls; [reflexivity|]. ls; [reflexivity|]. ls; [reflexivity|].
  apply (leads_0 0). eexists _, _, _. split; cycle 1; [replace (Z.of_nat p + sx 136)%Z with (Z.of_nat (p + 8 * 17)) by (change (sx 136) with 136%Z; lia); reflexivity|reflexivity].
Qed.
