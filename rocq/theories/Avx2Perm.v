(** __KeccakF1600 and KeccakP1600_Permute_24rounds of keccak/avx2 *)
From Coq Require Import Arith NArith ZArith String List Bool Lia.
From Verif Require Import Prelude SpongeModel KeccakModel KeccakFacts X86Model Avx2Code Avx2Round.
Import ListNotations.

Lemma reach_S k M M1 M2 : step code constants M = Ok (Next M1) -> reach k M1 M2 -> reach (S k) M M2.
Proof. intros E H f. cbn [Nat.add run]. rewrite E. cbn [bind]. apply H. Qed.
Lemma reach_eq M M' : M = M' -> reach 0 M M'.
Proof. intros <-. apply reach_refl. Qed.
Ltac fetch := match goal with |- context [get code ?n] => let v := eval vm_compute in (get code n) in change (get code n) with v end.
Ltac labels := repeat match goal with |- context [find_label code ?l] => let v := eval vm_compute in (find_label code l) in change (find_label code l) with v end.
Ltac xcbn := cbn [bind exec gp ym fc fz stk mst mda pc getr setr set_gp set_ym set_flags set_stk set_pc rax rbx rcx rdx rsi rdi r8 r9 r10 read_op write_op low alu holds ea bits_of_size bytes_of_size negb w0 w1 w2 w3].
(** one instruction *)
Ltac xs := eapply reach_S; [unfold step; cbn [pc]; fetch; labels; xcbn|].

Lemma iota_step k va vb vc vd vs vt v8 v9 x ys c z s ms md : k < 24 ->
  steps 1 (mkM 361 (mkG va vb vc vd vs vt v8 v9 (Vp Bro (384 + 32 * Z.of_nat k))) (V4 x x x x :: ys) c z s ms md) =
  Ok (mkM 362 (mkG va vb vc vd vs vt v8 v9 (Vp Bro (384 + 32 * Z.of_nat k)))
    (let x' := N.lxor x (nth k round_constants 0%N) in V4 x' x' x' x' :: ys) c z s ms md).
Proof. intros H. do 24 (destruct k as [|k]; [cbv -[N.lxor]; reflexivity|]). lia. Qed.

Lemma dec32 n : (1 <= n < 2 ^ 32)%N -> ((n mod 2 ^ 32 + (2 ^ 32 - 1)) mod 2 ^ 32)%N = (n - 1)%N.
Proof. intros H. rewrite (N.mod_small n) by lia. replace (n + (2 ^ 32 - 1))%N with (n - 1 + 1 * 2 ^ 32)%N by lia. rewrite N.mod_add by discriminate. apply N.mod_small. lia. Qed.

Lemma ylay_ba x R : V4 (l_ba R) (l_ba R) (l_ba R) (l_ba R) :: tl (ylay R) = ylay R /\ (x = l_ba R -> V4 x x x x :: tl (ylay R) = ylay R).
Proof. split; [reflexivity|]. intros ->. reflexivity. Qed.

Lemma round_b64 k A : Forall b64 (lane_list A) -> Forall b64 (lane_list (round k A)).
Proof.
  destruct A as [Aba Abe Abi Abo Abu Aga Age Agi Ago Agu Aka Ake Aki Ako Aku Ama Ame Ami Amo Amu Asa Ase Asi Aso Asu]. unfold lane_list. intros H. proj_in H.
  repeat (apply Forall_cons_iff in H; let X := fresh "Hb" in destruct H as [X H]). clear H. unfold round, theta_rho_pi_chi_iota_prepare_theta, prepare_theta. proj. cbv zeta. do 25 (apply Forall_cons; [b64s|]). apply Forall_nil.
Qed.
(** one round and its end *)
Lemma round_step A k n va vb vc vd vs vt c z s ms md ys : Forall b64 (lane_list A) -> List.length ys = 9 -> k < 24 -> (1 <= n < 2 ^ 32)%N -> va = Vi n ->
  exists ys' z', List.length ys' = 9 /\
    reach 109 (mkM 256 (mkG va vb vc vd vs vt (Vp Bro 96) (Vp Bro 288) (Vp Bro (384 + 32 * Z.of_nat k))) (ylay A ++ ys) c z s ms md)
      (mkM (if (n =? 1)%N then 365 else 256) (mkG (Vi (n - 1)) vb vc vd vs vt (Vp Bro 96) (Vp Bro 288) (Vp Bro (384 + 32 * Z.of_nat (S k)))) (ylay (round k A) ++ ys') c z' s ms md).
Proof.
  intros HA L Hk Hn ->. destruct (round_body A k (Vi n) vb vc vd vs vt (Vp Bro (384 + 32 * Z.of_nat k)) c z s ms md ys HA L) as (x & ys' & L' & E & Ex).
  exists ys', (Some (n =? 1)%N). split; [exact L'|]. change 109 with (105 + (1 + 3)). eapply reach_trans; [apply steps_reach; exact E|].
  eapply reach_trans; [apply steps_reach; apply iota_step; exact Hk|]. cbv zeta. rewrite Ex.
  change (V4 (l_ba (round k A)) (l_ba (round k A)) (l_ba (round k A)) (l_ba (round k A)) :: tl (ylay (round k A)) ++ ys') with (ylay (round k A) ++ ys').
  assert (Z1 : (n - 1 =? 0)%N = (n =? 1)%N) by (destruct (N.eqb_spec n 1), (N.eqb_spec (n - 1) 0); try reflexivity; lia).
  assert (Zk : (384 + 32 * Z.of_nat k + 32)%Z = (384 + 32 * Z.of_nat (S k))%Z) by lia.
  xs; [rewrite Zk; reflexivity|]. xs; [rewrite dec32 by exact Hn; rewrite Z1; reflexivity|].
  destruct (n =? 1)%N; (xs; [reflexivity|]); apply reach_eq; reflexivity.
Qed.
(** all the rounds *)
Lemma rounds_loop : forall n k A vb vc vd vs vt c z s ms md ys, Forall b64 (lane_list A) -> List.length ys = 9 -> k + S n <= 24 ->
  exists ys' z', List.length ys' = 9 /\
    reach (109 * S n) (mkM 256 (mkG (Vi (N.of_nat (S n))) vb vc vd vs vt (Vp Bro 96) (Vp Bro 288) (Vp Bro (384 + 32 * Z.of_nat k))) (ylay A ++ ys) c z s ms md)
      (mkM 365 (mkG (Vi 0) vb vc vd vs vt (Vp Bro 96) (Vp Bro 288) (Vp Bro (384 + 32 * Z.of_nat (k + S n)))) (ylay (fold_left (fun A i => round i A) (seq k (S n)) A) ++ ys') c z' s ms md).
Proof.
  induction n as [|n IH]; intros k A vb vc vd vs vt c z s ms md ys HA L Hk.
  - destruct (round_step A k 1 (Vi 1) vb vc vd vs vt c z s ms md ys HA L ltac:(lia) ltac:(lia) eq_refl) as (ys' & z' & L' & E). exists ys', z'. split; [exact L'|]. rewrite Nat.mul_1_r, Nat.add_1_r. exact E.
  - destruct (round_step A k (N.of_nat (S (S n))) _ vb vc vd vs vt c z s ms md ys HA L ltac:(lia) ltac:(lia) eq_refl) as (ys1 & z1 & L1 & E1).
    replace (N.of_nat (S (S n)) =? 1)%N with false in E1 by (symmetry; apply N.eqb_neq; lia). replace (N.of_nat (S (S n)) - 1)%N with (N.of_nat (S n)) in E1 by lia.
    destruct (IH (S k) (round k A) vb vc vd vs vt c z1 s ms md ys1 (round_b64 k A HA) L1 ltac:(lia)) as (ys' & z' & L' & E). exists ys', z'. split; [exact L'|].
    replace (109 * S (S n)) with (109 + 109 * S n) by lia. eapply reach_trans; [exact E1|]. replace (S k + S n) with (k + S (S n)) in E by lia. exact E.
Qed.
