(** Model of /repo/banquet_instances.{h,cpp} (the parameter table) and of ceil_log2, macros.h. *)
From Coq Require Import Arith NArith ZArith List Bool Lia.
From Verif Require Import Prelude.
Import ListNotations.

(** struct banquet_aes_t, banquet_instances.h:36-41 *)
Record aes_params : Type := mkAes {
  key_size : nat; block_size : nat; num_blocks : nat; num_sboxes : nat }.

(** struct banquet_instance_t, banquet_instances.h:43-59; [params] is the enum value as an integer *)
Record instance : Type := mkInst {
  i_aes : aes_params;
  digest_size : nat; seed_size : nat;
  num_rounds : nat; num_parties : nat;
  m1 : nat; m2 : nat; lambda : nat;
  i_params : nat }.

(** banquet_instances.cpp:6-8 *)
Definition AES128_PARAMS := mkAes 16 16 1 200.
Definition AES192_PARAMS := mkAes 24 16 2 416.
Definition AES256_PARAMS := mkAes 32 16 2 500.

(** static const instances[], banquet_instances.cpp:10-48 *)
Definition instances : list instance := [
  mkInst (mkAes 0 0 0 0) 0 0 0 0 0 0 0 0;
  mkInst AES128_PARAMS 32 16 31 64 10 20 4 1;
  mkInst AES128_PARAMS 32 16 31 64 20 10 4 2;
  mkInst AES128_PARAMS 32 16 29 64 10 20 5 3;
  mkInst AES128_PARAMS 32 16 27 64 10 20 6 4;
  mkInst AES128_PARAMS 32 16 41 16 10 20 4 5;
  mkInst AES128_PARAMS 32 16 35 32 10 20 4 6;
  mkInst AES128_PARAMS 32 16 28 128 10 20 4 8;
  mkInst AES128_PARAMS 32 16 24 128 10 20 6 7;
  mkInst AES128_PARAMS 32 16 23 256 10 20 5 9;
  mkInst AES128_PARAMS 32 16 21 256 10 20 6 10;
  mkInst AES192_PARAMS 48 24 46 64 16 26 4 11;
  mkInst AES192_PARAMS 48 24 46 64 26 16 4 12;
  mkInst AES192_PARAMS 48 24 62 16 26 16 4 13;
  mkInst AES192_PARAMS 48 24 53 32 26 16 4 14;
  mkInst AES192_PARAMS 48 24 40 64 26 16 6 15;
  mkInst AES192_PARAMS 48 24 36 128 26 16 6 16;
  mkInst AES192_PARAMS 48 24 32 256 26 16 6 17;
  mkInst AES256_PARAMS 64 32 63 64 20 25 4 18;
  mkInst AES256_PARAMS 64 32 84 16 25 20 4 19;
  mkInst AES256_PARAMS 64 32 63 32 25 20 6 20;
  mkInst AES256_PARAMS 64 32 54 64 25 20 6 21;
  mkInst AES256_PARAMS 64 32 48 128 25 20 6 22;
  mkInst AES256_PARAMS 64 32 43 256 25 20 6 23 ].

(** enum bounds, banquet_instances.h:9,33 *)
Definition PARAMETER_SET_INVALID : Z := 0.
Definition PARAMETER_SET_MAX_INDEX : Z := 24.

(** banquet_instance_get, banquet_instances.cpp:50-56.  The enum argument is any integer. *)
Definition banquet_instance_get (param : Z) : res instance :=
  if ((param <=? PARAMETER_SET_INVALID) || (PARAMETER_SET_MAX_INDEX <=? param))%Z
  then Throw EInvalidSet
  else get instances (Z.to_nat param).

(** the builtin instances: what banquet_instance_get can return *)
Definition builtin (I : instance) : Prop := exists p, banquet_instance_get p = Ok I.

(** clz for a uint32_t, macros.h:276-279: x ? __builtin_clz(x) : 32.
    The builtin counts the zero bits above the top bit of a nonzero 32-bit word. *)
Definition clz (x : N) : N := (if x =? 0 then 32 else 31 - N.log2 x)%N.

(** the portable fallback of clz, macros.h:286-311 (used when the builtin is missing);
    x << k is truncated to uint32_t *)
Definition shl32 (x k : N) : N := (N.shiftl x k mod 2^32)%N.
Definition clz_portable (x : N) : N :=
  (if x =? 0 then 32 else
   let '(n, x) := if N.shiftr x 16 =? 0 then (1 + 16, shl32 x 16) else (1, x) in
   let '(n, x) := if N.shiftr x 24 =? 0 then (n + 8, shl32 x 8) else (n, x) in
   let '(n, x) := if N.shiftr x 28 =? 0 then (n + 4, shl32 x 4) else (n, x) in
   let '(n, x) := if N.shiftr x 30 =? 0 then (n + 2, shl32 x 2) else (n, x) in
   n - N.shiftr x 31)%N.

(** ceil_log2, macros.h:314-319, on a uint32_t; the subtraction is on uint32_t. *)
Definition ceil_log2_with (clz : N -> N) (x : N) : N :=
  (if x =? 0 then 0 else (2^32 + 32 - clz (x - 1)) mod 2^32)%N.
Definition ceil_log2 : N -> N := ceil_log2_with clz.
(** the same on a size_t argument, as used in tree.cpp:72,162 and banquet.cpp:246,1254
    (the implicit conversion to uint32_t is the identity for the sizes that occur) *)
Definition ceil_log2_nat (n : nat) : nat := N.to_nat (ceil_log2 (N.of_nat n)).

Lemma builtin_in I : builtin I <-> In I (tl instances).
Proof.
  split.
  - intros [p H]. unfold banquet_instance_get in H.
    destruct ((p <=? PARAMETER_SET_INVALID) || (PARAMETER_SET_MAX_INDEX <=? p))%Z eqn:E; [discriminate|].
    apply orb_false_iff in E. destruct E as [E1 E2]. apply Z.leb_gt in E1, E2.
    unfold PARAMETER_SET_INVALID in E1. unfold get in H.
    destruct (nth_error instances (Z.to_nat p)) eqn:F; inversion H; subst.
    destruct (Z.to_nat p) eqn:G; [lia|]. simpl in F. apply nth_error_In in F. exact F.
  - intros H. apply In_nth_error in H. destruct H as [k H].
    exists (Z.of_nat (S k)). unfold banquet_instance_get.
    assert (k < 23)%nat. { apply (proj1 (nth_error_Some (tl instances) k)). congruence. }
    replace (_ || _)%bool with false.
    + rewrite Nat2Z.id. unfold get. change (nth_error instances (S k)) with (nth_error (tl instances) k).
      rewrite H. reflexivity.
    + symmetry. apply orb_false_iff. unfold PARAMETER_SET_INVALID, PARAMETER_SET_MAX_INDEX.
      split; apply Z.leb_gt; lia.
Qed.

Lemma builtin_forall (P : instance -> bool) : forallb P (tl instances) = true ->
  forall I, builtin I -> P I = true.
Proof. intros H I HI. apply builtin_in in HI. rewrite forallb_forall in H. auto. Qed.

Lemma builtin_facts I : builtin I ->
  m1 I * m2 I = num_sboxes (i_aes I) /\
  ((i_aes I = AES128_PARAMS /\ digest_size I = 32 /\ lambda I <> 2 /\ 1 <= num_rounds I) \/
   (i_aes I = AES192_PARAMS /\ digest_size I = 48 /\ lambda I <> 2 /\ 1 <= num_rounds I) \/
   (i_aes I = AES256_PARAMS /\ digest_size I = 64 /\ lambda I <> 2 /\ 1 <= num_rounds I)) /\
  2 * seed_size I = digest_size I /\
  (exists k, 4 <= k <= 8 /\ num_parties I = 2 ^ k) /\
  (lambda I = 4 \/ lambda I = 5 \/ lambda I = 6).
Proof.
  intros H. apply builtin_in in H.
  repeat match goal with
  | H : In _ (tl _) |- _ => simpl in H
  | H : _ \/ _ |- _ => destruct H as [H|H]
  end; try contradiction; subst I; cbn;
  (split; [reflexivity|]; split;
   [ first [ left; repeat split; [discriminate|lia]
           | right; left; repeat split; [discriminate|lia]
           | right; right; repeat split; [discriminate|lia] ]
   | split; [reflexivity|]; split; [|tauto];
     first [ exists 4; split; [lia|reflexivity] | exists 5; split; [lia|reflexivity]
           | exists 6; split; [lia|reflexivity] | exists 7; split; [lia|reflexivity]
           | exists 8; split; [lia|reflexivity] ] ]).
Qed.

Lemma ceil_log2_spec x : (1 <= x < 2^32)%N ->
  let k := ceil_log2 x in (x <= 2^k /\ forall j, x <= 2^j -> k <= j)%N.
Proof.
  intros H k. unfold k, ceil_log2, ceil_log2_with, clz.
  replace (x =? 0)%N with false by (symmetry; apply N.eqb_neq; lia).
  destruct (N.eqb_spec (x - 1) 0) as [E|E].
  { assert (x = 1)%N by lia. subst x. split; [cbn; lia|]. intros. apply N.le_0_l. }
  set (l := N.log2 (x - 1)).
  assert (Hl : (2 ^ l <= x - 1 < 2 ^ N.succ l)%N) by (apply N.log2_spec; lia).
  assert (l < 32)%N. { apply N.log2_lt_pow2; lia. }
  replace ((2 ^ 32 + 32 - (31 - l)) mod 2 ^ 32)%N with (N.succ l).
  - split; [lia|]. intros j Hj. destruct (N.le_gt_cases (N.succ l) j); auto.
    assert (2 ^ j <= 2 ^ l)%N by (apply N.pow_le_mono_r; lia). lia.
  - replace (2 ^ 32 + 32 - (31 - l))%N with (N.succ l + 1 * 2 ^ 32)%N by lia.
    rewrite N.mod_add by discriminate. rewrite N.mod_small; auto.
    apply N.le_lt_trans with 32%N; [lia|reflexivity].
Qed.

Lemma log2_shl32 x k : (x <> 0 -> N.log2 x + k < 32 -> N.log2 (shl32 x k) = N.log2 x + k /\ shl32 x k <> 0)%N.
Proof.
  intros Hx Hl. unfold shl32. rewrite N.shiftl_mul_pow2.
  assert (Hs : (x * 2 ^ k <> 0)%N) by (apply N.neq_mul_0; split; auto; apply N.pow_nonzero; discriminate).
  assert (Hg : (N.log2 (x * 2 ^ k) = N.log2 x + k)%N).
  { rewrite N.log2_mul_pow2; lia. }
  rewrite N.mod_small.
  - split; auto.
  - apply N.log2_lt_pow2; [lia|]. rewrite Hg. auto.
Qed.
Lemma shiftr_eq0_log2 x k : (x <> 0 -> ((N.shiftr x k =? 0) = (N.log2 x <? k)))%N.
Proof.
  intros Hx. destruct (N.ltb_spec (N.log2 x) k) as [H|H].
  - apply N.eqb_eq. apply N.shiftr_eq_0. auto.
  - apply N.eqb_neq. intros E. apply N.shiftr_eq_0_iff in E. lia.
Qed.
Lemma clz_portable_ok x : (x < 2^32)%N -> clz_portable x = clz x.
Proof.
  intros Hx. unfold clz_portable, clz. destruct (N.eqb_spec x 0) as [E|E]; auto.
  assert (Hl : (N.log2 x < 32)%N) by (apply N.log2_lt_pow2; lia). clear Hx.
  set (L := N.log2 x) in *.
  assert (A : exists n1 x1, (if N.shiftr x 16 =? 0 then (1 + 16, shl32 x 16) else (1, x))%N = (n1, x1) /\
     x1 <> 0%N /\ (N.log2 x1 + 1 = L + n1 /\ 16 <= N.log2 x1 < 32)%N).
  { rewrite shiftr_eq0_log2 by auto. fold L. destruct (N.ltb_spec L 16).
    - destruct (log2_shl32 x 16) as [H1 H2]; auto. { fold L. lia. }
      do 2 eexists. split; [reflexivity|]. rewrite H1. fold L. split; [assumption|lia].
    - do 2 eexists. split; [reflexivity|]. fold L. split; [assumption|lia]. }
  destruct A as [n1 [x1 [-> [N1 [E1 B1]]]]].
  assert (A : exists n2 x2, (if N.shiftr x1 24 =? 0 then (n1 + 8, shl32 x1 8) else (n1, x1))%N = (n2, x2) /\
     x2 <> 0%N /\ (N.log2 x2 + 1 = L + n2 /\ 24 <= N.log2 x2 < 32)%N).
  { rewrite shiftr_eq0_log2 by auto. destruct (N.ltb_spec (N.log2 x1) 24).
    - destruct (log2_shl32 x1 8) as [H1 H2]; auto. { lia. }
      do 2 eexists. split; [reflexivity|]. rewrite H1. split; [assumption|lia].
    - do 2 eexists. split; [reflexivity|]. split; [assumption|lia]. }
  destruct A as [n2 [x2 [-> [N2 [E2 B2]]]]].
  assert (A : exists n3 x3, (if N.shiftr x2 28 =? 0 then (n2 + 4, shl32 x2 4) else (n2, x2))%N = (n3, x3) /\
     x3 <> 0%N /\ (N.log2 x3 + 1 = L + n3 /\ 28 <= N.log2 x3 < 32)%N).
  { rewrite shiftr_eq0_log2 by auto. destruct (N.ltb_spec (N.log2 x2) 28).
    - destruct (log2_shl32 x2 4) as [H1 H2]; auto. { lia. }
      do 2 eexists. split; [reflexivity|]. rewrite H1. split; [assumption|lia].
    - do 2 eexists. split; [reflexivity|]. split; [assumption|lia]. }
  destruct A as [n3 [x3 [-> [N3 [E3 B3]]]]].
  assert (A : exists n4 x4, (if N.shiftr x3 30 =? 0 then (n3 + 2, shl32 x3 2) else (n3, x3))%N = (n4, x4) /\
     x4 <> 0%N /\ (N.log2 x4 + 1 = L + n4 /\ 30 <= N.log2 x4 < 32)%N).
  { rewrite shiftr_eq0_log2 by auto. destruct (N.ltb_spec (N.log2 x3) 30).
    - destruct (log2_shl32 x3 2) as [H1 H2]; auto. { lia. }
      do 2 eexists. split; [reflexivity|]. rewrite H1. split; [assumption|lia].
    - do 2 eexists. split; [reflexivity|]. split; [assumption|lia]. }
  destruct A as [n4 [x4 [-> [N4 [E4 B4]]]]].
  assert (S4 : (2 ^ N.log2 x4 <= x4 < 2 ^ N.succ (N.log2 x4))%N) by (apply N.log2_spec; lia).
  rewrite N.shiftr_div_pow2.
  assert (O : (N.log2 x4 = 30 \/ N.log2 x4 = 31)%N) by lia.
  destruct O as [O|O]; rewrite O in *.
  - rewrite N.div_small by (apply S4). lia.
  - replace (x4 / 2 ^ 31)%N with 1%N; [lia|].
    symmetry. symmetry. apply N.div_unique with (x4 - 2 ^ 31)%N.
    + change (2 ^ N.succ 31)%N with (2 ^ 31 + 2 ^ 31)%N in S4. lia.
    + lia.
Qed.

(** ceil_log2 as the library function on nat, used by the tree and challenge proofs *)
Lemma ceil_log2_nat_spec n : 1 <= n -> (N.of_nat n < 2^32)%N -> ceil_log2_nat n = Nat.log2_up n.
Proof.
  intros H1 H2. unfold ceil_log2_nat.
  destruct (ceil_log2_spec (N.of_nat n)) as [A B]; [lia|].
  set (k := N.to_nat (ceil_log2 (N.of_nat n))).
  assert (Hp : forall j, N.of_nat (2 ^ j) = (2 ^ N.of_nat j)%N).
  { induction j; auto. rewrite Nat.pow_succ_r', Nat2N.inj_mul, IHj, (Nat2N.inj_succ j), (N.pow_succ_r 2) by lia. reflexivity. }
  apply Nat.le_antisymm.
  - assert (Hk : (ceil_log2 (N.of_nat n) <= N.of_nat (Nat.log2_up n))%N).
    { apply B. rewrite <- Hp. destruct (Nat.eq_dec n 1) as [->|]; [cbn; lia|].
      pose proof (Nat.log2_up_spec n ltac:(lia)). lia. }
    unfold k. lia.
  - apply Nat.log2_up_le_pow2; [lia|]. assert (N.of_nat n <= N.of_nat (2 ^ k))%N; [|lia].
    rewrite Hp. unfold k. rewrite N2Nat.id. exact A.
Qed.
