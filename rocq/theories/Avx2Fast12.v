(** KeccakP1600_12rounds_FastLoop_Absorb of keccak/avx2, for 17 and 21 lanes *)
From Coq Require Import Arith NArith ZArith String List Bool Lia.
From Verif Require Import Prelude SpongeModel SpongeFacts KeccakSpec KeccakModel KeccakFacts KeccakBytes SnpMem SnpLayout SnpSim Opt64Model Opt64Facts X86Model Avx2Code Avx2Round Avx2Perm Avx2Mem Avx2Facts Avx2Calls Avx2Add Avx2Block Avx2Fast StateSpec Opt64MoreFacts Avx2Rounds.
Import ListNotations.

Lemma permute_n_good n st : is_bytes (permute_n n st) /\ List.length (permute_n n st) = 200.
Proof. unfold permute_n. split; [|apply to_length]. apply (rel_facts _ _ (rel_memory (rounds_n n (copy_from_state st)))). Qed.
Lemma rounds_n_b64 n A : Forall b64 (lane_list A) -> Forall b64 (lane_list (rounds_n n A)).
Proof. unfold rounds_n. generalize (seq (24 - n) n). intros l. revert A. induction l as [|i l IH]; intros A H; [exact H|]. cbn [fold_left]. apply IH. apply round_b64. exact H. Qed.
Lemma rounds_n_copy n st : n <= 24 -> is_bytes st -> List.length st = 200 -> rounds_n n (copy_from_state st) = copy_from_state (permute_n n st).
Proof. intros Hn H L. unfold permute_n. symmetry. apply from_to. rewrite <- lane_list_lanes. apply rounds_n_b64. apply from_b64. exact H. Qed.
(** one block, from the label of the loop to the call of __KeccakF1600 *)
Lemma block21_12 st d p va vb vc vs vt v8 v9 v10 c z s m ys : is_bytes st -> is_bytes (skipn p d) -> List.length st = 200 -> 8 * 21 <= List.length (skipn p d) -> List.length ys = 9 ->
  leads 32 (mkM 608 (mkG va vb vc (Vp Bda (Z.of_nat p)) vs vt v8 v9 v10) (ylay (copy_from_state st) ++ ys) c z s m d)
    (fun M => exists ys' c' z', List.length ys' = 9 /\ M = mkM 640 (mkG (Vi 12) vb vc (Vp Bda (Z.of_nat (p + 8 * 21))) vs vt v8 v9 (Vp Bro 768)) (ylay (copy_from_state (xin st 0 (firstn (8 * 21) (skipn p d)))) ++ ys') c' z' s m d).
Proof.
  intros Bs Bd Ls Ld L. rewrite (xored21 st d p Bs Bd Ls Ld). rewrite skipn_length in Ld. do 9 (destruct ys as [|? ys]; [discriminate L|]). destruct ys; [|discriminate L].
  generalize (copy_from_state st) as A. intros A. unfold ylay. cbn [app].
  ls; [reflexivity|]. ds d p. cs. cs. gs d p.
  cs. zs. cs. gs d p.
  cs. zs. cs. gs d p.
  cs. zs. cs. gs d p.
  cs. zs. cs. gs d p.
  xo. xo. xo. xo. xo. xo. xo.
  ls; [reflexivity|]. ls; [reflexivity|]. ls; [reflexivity|].
  apply (leads_0 0). eexists _, _, _. split; cycle 1; [replace (Z.of_nat p + sx 168)%Z with (Z.of_nat (p + 8 * 21)) by (change (sx 168) with 168%Z; lia); reflexivity|reflexivity].
Qed.
Lemma block17_12 st d p va vb vc vs vt v8 v9 v10 c z s m ys : is_bytes st -> is_bytes (skipn p d) -> List.length st = 200 -> 8 * 17 <= List.length (skipn p d) -> List.length ys = 9 ->
  leads 33 (mkM 672 (mkG va vb vc (Vp Bda (Z.of_nat p)) vs vt v8 v9 v10) (ylay (copy_from_state st) ++ ys) c z s m d)
    (fun M => exists ys' c' z', List.length ys' = 9 /\ M = mkM 705 (mkG (Vi 12) vb vc (Vp Bda (Z.of_nat (p + 8 * 17))) vs vt v8 v9 (Vp Bro 768)) (ylay (copy_from_state (xin st 0 (firstn (8 * 17) (skipn p d)))) ++ ys') c' z' s m d).
Proof.
  intros Bs Bd Ls Ld L. rewrite (xored17 st d p Bs Bd Ls Ld). rewrite skipn_length in Ld. do 9 (destruct ys as [|? ys]; [discriminate L|]). destruct ys; [|discriminate L].
  generalize (copy_from_state st) as A. intros A. unfold ylay. cbn [app].
  ls; [reflexivity|]. ds d p.
  cs. zs. cs. gs d p.
  cs. zs. cs. gs d p.
  cs. zs. cs. gs d p.
  cs. zs. cs. gs d p.
  cs. zs. cs. gs d p.
  xo. xo. xo. xo. xo. xo. xo.
  ls; [reflexivity|]. ls; [reflexivity|]. ls; [reflexivity|].
  apply (leads_0 0). eexists _, _, _. split; cycle 1; [replace (Z.of_nat p + sx 136)%Z with (Z.of_nat (p + 8 * 17)) by (change (sx 136) with 136%Z; lia); reflexivity|reflexivity].
Qed.

Section Loop12.
(** b: the pc of the loop's label, a: of the call, e: of the item after the loop; k: the number of lanes *)
Variables (k b a e B : nat).
Hypothesis Hk : k <= 25.
Hypothesis Block : forall st d p va vb vc vs vt v8 v9 v10 c z s m ys, is_bytes st -> is_bytes (skipn p d) -> List.length st = 200 -> 8 * k <= List.length (skipn p d) -> List.length ys = 9 ->
  leads B (mkM b (mkG va vb vc (Vp Bda (Z.of_nat p)) vs vt v8 v9 v10) (ylay (copy_from_state st) ++ ys) c z s m d)
    (fun M => exists ys' c' z', List.length ys' = 9 /\ M = mkM a (mkG (Vi 12) vb vc (Vp Bda (Z.of_nat (p + 8 * k))) vs vt v8 v9 (Vp Bro 768)) (ylay (copy_from_state (xin st 0 (firstn (8 * k) (skipn p d)))) ++ ys') c' z' s m d).
Hypothesis Call : forall G y c z s m d, step code constants (mkM a G y c z s m d) = Ok (Next (mkM 255 G y c z (SR (S a) :: s) m d)).
Hypothesis Sub : forall va vb n vd vs vt v8 v9 v10 y c z s m d, step code constants (mkM (S a) (mkG va vb (Vi n) vd vs vt v8 v9 v10) y c z s m d) =
  Ok (Next (mkM (S (S a)) (mkG va vb (Vi ((n + (2 ^ 64 - N.of_nat k)) mod 2 ^ 64)%N) vd vs vt v8 v9 v10) y (Some (n <? N.of_nat k)%N) (Some (n =? N.of_nat k)%N) s m d)).
Hypothesis Jae : forall G y c z s m d, step code constants (mkM (S (S a)) G y (Some c) z s m d) = Ok (Next (mkM (if c then e else b) G y (Some c) z s m d)).

Lemma loop12 : forall fuel st d p st' d' vb va vs vt v10 c z s m ys, absorb_blocks (permute_n 12) (8 * k) fuel st (skipn p d) = Ok (st', d') ->
  is_bytes st -> is_bytes d -> List.length st = 200 -> 8 * k <= List.length d - p -> p <= List.length d -> (N.of_nat (List.length d) < 2 ^ 63)%N -> List.length ys = 9 ->
  leads ((B + 1313) * fuel) (mkM b (mkG va vb (Vi (N.of_nat ((List.length d - p) / 8 - k))) (Vp Bda (Z.of_nat p)) vs vt (Vp Bro 96) (Vp Bro 288) v10) (ylay (copy_from_state st) ++ ys) c z s m d)
    (fun M => exists p' G' ys' c' z', M = mkM e G' (ylay (copy_from_state st') ++ ys') c' z' s m d /\ List.length ys' = 9 /\
      (rdx G' = Vp Bda (Z.of_nat p') /\ rbx G' = vb /\ rdi G' = vt) /\ p <= p' <= List.length d /\ d' = skipn p' d /\ is_bytes st' /\ List.length st' = 200).
Proof.
  induction fuel as [|fuel IH]; intros st d p st' d' vb va vs vt v10 c z s m ys E Bs Bd Ls Hb Hp Hd L; [discriminate|]. cbn [absorb_blocks] in E. rewrite skipn_length in E.
  replace (8 * k <=? List.length d - p) with true in E by (symmetry; apply Nat.leb_le; exact Hb). apply bind_ok in E. destruct E as (st1 & E1 & E). apply add_bytes_inv in E1. destruct E1 as (_ & _ & ->). rewrite Nat2N.id in E. rewrite skip_more in E.
  pose proof (skipn_bytes p d Bd) as Bp. set (x := xin st 0 (firstn (8 * k) (skipn p d))) in *.
  assert (Bx : is_bytes x) by (apply xin_bytes; [exact Bs|apply firstn_bytes; exact Bp]). assert (Lx : List.length x = 200) by (unfold x; rewrite xin_length; exact Ls).
  replace ((B + 1313) * S fuel) with (B + (1 + (1310 + (2 + (B + 1313) * fuel)))) by lia.
  eapply leads_bind; [apply Block; [exact Bs|exact Bp|exact Ls|rewrite skipn_length; exact Hb|exact L]|]. cbv beta. intros M (ys1 & c1 & z1 & L1 & ->). fold x.
  eapply leads_S; [apply Call|].
  destruct (keccak_call_n (copy_from_state x) 12 vb (Vi (N.of_nat ((List.length d - p) / 8 - k))) (Vp Bda (Z.of_nat (p + 8 * k))) vs vt c1 z1 (S a) s m d ys1 (from_b64 x Bx) L1 ltac:(lia) ltac:(lia)) as (ys2 & z2 & v10' & L2 & K).
  eapply leads_reach; [exact K|]. clear K. rewrite rounds_n_copy by (assumption || lia).
  eapply leads_S; [apply Sub|]. eapply leads_S; [apply Jae|].
  replace (List.length d - (p + 8 * k)) with (List.length d - p - 8 * k) in * by lia.
  destruct (N.ltb_spec (N.of_nat ((List.length d - p) / 8 - k)) (N.of_nat k)) as [A|A].
  - destruct fuel as [|fuel]; [discriminate|]. cbn [absorb_blocks] in E. rewrite skipn_length in E.
    pose proof (eighths _ _ Hb) as Q. pose proof (le_eighths (List.length d - p - 8 * k) k) as Q2.
    replace (8 * k <=? List.length d - (p + 8 * k)) with false in E by (symmetry; apply Nat.leb_gt; lia).
    assert (E1 : st' = (permute_n 12) x /\ d' = skipn (p + 8 * k) d) by (split; congruence). destruct E1 as [-> ->]. clear E.
    apply leads_0. eexists (p + 8 * k), _, _, _, _. split; [reflexivity|]. split; [exact L2|]. cbn [rdx rbx rdi]. repeat split; try lia; apply permute_n_good.
  - assert (A' : 8 * k <= List.length d - p - 8 * k). { apply (le_eighths (List.length d - p - 8 * k) k). rewrite eighths by exact Hb. lia. }
    rewrite sub64; [|lia|eapply N.le_lt_trans; [|exact Hd]; pose proof (Nat.div_le_upper_bound (List.length d - p) 8 (List.length d - p) ltac:(discriminate) ltac:(lia)); lia].
    rewrite <- (eighths _ _ Hb). replace (List.length d - p - 8 * k) with (List.length d - (p + 8 * k)) by lia.
    eapply leads_conseq; [apply (IH ((permute_n 12) x) d (p + 8 * k) st' d'); [exact E|apply permute_n_good|exact Bd|apply permute_n_good|lia|lia|exact Hd|exact L2]|].
    cbv beta. intros M (p' & G' & ys' & c' & z' & H1 & H2 & H3 & H4 & H5 & H6 & H7). exists p', G', ys', c', z'. repeat split; try assumption; try apply H3; lia.
Qed.
End Loop12.

(** from SaveAndExit to the ret *)
Lemma save_exit12 st m vb v0 p G ys c z s d : is_bytes st -> List.length st = 200 -> List.length m = 200 -> List.length ys = 9 -> rdx G = Vp Bda (Z.of_nat p) -> rbx G = Vp Bda 0 -> rdi G = Vp Bst 96 -> (N.of_nat p < 2 ^ 64)%N ->
  leads 14 (mkM 643 G (ylay (copy_from_state st) ++ ys) c z (SV v0 :: SV vb :: s) m d)
    (fun M => exists G' y' c' z' m', M = mkM 657 G' y' c' z' s m' d /\ rel m' st /\ rax G' = Vi (N.of_nat p) /\ rbx G' = vb /\ r10 G' = v0).
Proof.
  intros Bs Ls Lm L Gd Gb Gt Hp. destruct G as [a b c0 d0 s0 t e f g]. cbn [rdx rbx rdi] in *. subst d0 b t.
  ls; [reflexivity|]. change 13 with (7 + 6). eapply leads_reach; [apply (stores (copy_from_state st) m 644); [exact Lm|repeat split; vm_compute; reflexivity]|].
  ls; [reflexivity|]. ls; [reflexivity|]. ls; [reflexivity|].
  ls; [rewrite Z.sub_0_r; rewrite Z.mod_small by lia; reflexivity|]. replace (Z.to_N (Z.of_nat p)) with (N.of_nat p) by lia.
  ls; [reflexivity|]. ls; [reflexivity|]. apply leads_0. eexists _, _, _, _, _. split; [reflexivity|].
  split; [|repeat split]. pose proof (rel_memory (copy_from_state st)) as R. rewrite to_from in R by assumption. exact R.
Qed.

Lemma fast12_leads k fuel m st d st' d' va vb v8 v9 v10 c z s y : k = 17 \/ k = 21 -> rel m st -> is_bytes d -> absorb_blocks (permute_n 12) (8 * k) fuel st d = Ok (st', d') -> List.length y = 16 -> (N.of_nat (List.length d) < 2 ^ 63)%N ->
  leads (2660 * fuel + 60) (mkM 587 (mkG va vb (Vi (N.of_nat (List.length d))) (Vp Bda 0) (Vi (N.of_nat k)) (Vp Bst 0) v8 v9 v10) y c z s m d)
    (fun M => exists p G' y' c' z' m', M = mkM 657 G' y' c' z' s m' d /\ rel m' st' /\ rax G' = Vi (N.of_nat p) /\ rbx G' = vb /\ skipn p d = d' /\ p <= List.length d).
Proof.
  intros Hk H Bd E Ly Hd. pose proof (rel_facts m st H) as (Lm & Bm & Ls & Bs).
  assert (S3 : N.shiftr (N.of_nat (List.length d)) 3 = N.of_nat (List.length d / 8)) by (rewrite N.shiftr_div_pow2; change (2 ^ 3)%N with (N.of_nat 8); rewrite Nat2N.inj_div; reflexivity).
  destruct (le_lt_dec (8 * k) (List.length d)) as [Ld|Ld].
  2:{ assert (X : st' = st /\ d' = d). { destruct fuel as [|fuel]; [discriminate|]. cbn [absorb_blocks] in E. replace (8 * k <=? List.length d) with false in E by (symmetry; apply Nat.leb_gt; exact Ld). split; congruence. } destruct X as [-> ->].
      assert (Q : (N.of_nat (List.length d / 8) <? N.of_nat k)%N = true). { apply N.ltb_lt. pose proof (le_eighths (List.length d) k). lia. }
      eapply leads_weak.
      - ls; [reflexivity|]. ls; [reflexivity|]. ls; [reflexivity|]. ls; [rewrite S3; reflexivity|]. ls; [reflexivity|]. ls; [rewrite Q; reflexivity|]. ls; [reflexivity|].
        ls; [reflexivity|]. ls; [reflexivity|]. ls; [reflexivity|]. ls; [reflexivity|]. ls; [reflexivity|]. ls; [reflexivity|]. apply (leads_0 0). eexists 0, _, _, _, _, _. split; [reflexivity|]. split; [exact H|]. split; [reflexivity|]. split; [reflexivity|]. split; [reflexivity|lia].
      - lia. }
  assert (Q0 : k <= List.length d / 8) by (apply le_eighths; exact Ld). assert (Q : (N.of_nat (List.length d / 8) <? N.of_nat k)%N = false) by (apply N.ltb_ge; lia).
  assert (Q1 : (N.of_nat (List.length d / 8) < 2 ^ 63)%N) by (eapply N.le_lt_trans; [|exact Hd]; pose proof (Nat.div_le_upper_bound (List.length d) 8 (List.length d) ltac:(discriminate) ltac:(lia)); lia).
  destruct Hk as [-> | ->].
  - eapply leads_weak.
    + ls; [reflexivity|]. ls; [reflexivity|]. ls; [reflexivity|]. ls; [rewrite S3; reflexivity|]. ls; [reflexivity|]. ls; [rewrite Q; reflexivity|]. ls; [reflexivity|]. ls; [reflexivity|]. ls; [reflexivity|]. ls; [reflexivity|].
      ls; [reflexivity|]. ls; [reflexivity|]. ls; [reflexivity|]. ls; [change 17%N with (N.of_nat 17) at 1; rewrite sub64 by (exact Q0 || exact Q1); reflexivity|]. ls; [reflexivity|]. ls; [reflexivity|]. ls; [reflexivity|].
      match goal with |- leads _ (mkM _ (mkG ?va ?vb ?vc ?vd ?vs _ ?v8 ?v9 ?v10) _ ?c ?z ?s _ _) _ => destruct (loads m st 665 va vb vc vd vs v8 v9 v10 c z s d (upper y) H ltac:(rewrite upper_len; exact Ly) ltac:(repeat split; vm_compute; reflexivity)) as (ys & L & K) end.
      eapply leads_reach; [exact K|]. clear K.
      rewrite <- (Nat.sub_0_r (List.length d)) at 1. change 0%Z with (Z.of_nat 0) at 2.
      eapply leads_bind; [apply (loop12 17 672 705 708 33 ltac:(lia) block17_12) with (d := d) (st := st) (p := 0) (fuel := fuel) (st' := st') (d' := d')|]; try assumption; try lia; try (intros; reflexivity).
      * intros G y0 [|] *; reflexivity.
      * cbv beta. intros M (p' & G' & ys' & c' & z' & -> & L' & (G1 & G2 & G3) & Hp & -> & Bs' & Ls').
        ls; [reflexivity|]. eapply leads_conseq; [eapply save_exit12; try eassumption; try reflexivity; lia|]. cbv beta. intros M (G1' & y1 & c1 & z1 & m1 & -> & R & X1 & X2 & X3). exists p', G1', y1, c1, z1, m1. split; [reflexivity|]. split; [exact R|]. split; [exact X1|]. split; [exact X2|]. split; [reflexivity|lia].
    + lia.
  - eapply leads_weak.
    + ls; [reflexivity|]. ls; [reflexivity|]. ls; [reflexivity|]. ls; [rewrite S3; reflexivity|]. ls; [reflexivity|]. ls; [rewrite Q; reflexivity|]. ls; [reflexivity|]. ls; [reflexivity|]. ls; [reflexivity|]. ls; [reflexivity|].
      ls; [change 21%N with (N.of_nat 21) at 1; rewrite sub64 by (exact Q0 || exact Q1); reflexivity|]. ls; [reflexivity|]. ls; [reflexivity|]. ls; [reflexivity|].
      match goal with |- leads _ (mkM _ (mkG ?va ?vb ?vc ?vd ?vs _ ?v8 ?v9 ?v10) _ ?c ?z ?s _ _) _ => destruct (loads m st 601 va vb vc vd vs v8 v9 v10 c z s d (upper y) H ltac:(rewrite upper_len; exact Ly) ltac:(repeat split; vm_compute; reflexivity)) as (ys & L & K) end.
      eapply leads_reach; [exact K|]. clear K.
      rewrite <- (Nat.sub_0_r (List.length d)) at 1. change 0%Z with (Z.of_nat 0) at 2.
      eapply leads_bind; [apply (loop12 21 608 640 643 32 ltac:(lia) block21_12) with (d := d) (st := st) (p := 0) (fuel := fuel) (st' := st') (d' := d')|]; try assumption; try lia; try (intros; reflexivity).
      * intros G y0 [|] *; reflexivity.
      * cbv beta. intros M (p' & G' & ys' & c' & z' & -> & L' & (G1 & G2 & G3) & Hp & -> & Bs' & Ls').
        eapply leads_conseq; [eapply save_exit12; try eassumption; try reflexivity; lia|]. cbv beta. intros M (G1' & y1 & c1 & z1 & m1 & -> & R & X1 & X2 & X3). exists p', G1', y1, c1, z1, m1. split; [reflexivity|]. split; [exact R|]. split; [exact X1|]. split; [exact X2|]. split; [reflexivity|lia].
    + lia.
Qed.
