(** Property theorems about the parameter table (C36, C37) and ceil_log2 (C48). *)
From Coq Require Import Arith NArith ZArith List Bool Lia.
From Verif Require Import Prelude Instances FreeSpec FieldExtra BanquetApi.
Import ListNotations.

(** C36: consistency of the table. *)
Theorem C36_table_consistent : forall I, builtin I ->
  m1 I * m2 I = num_sboxes (i_aes I) /\
  ((i_aes I = mkAes 16 16 1 200 /\ digest_size I = 32 /\ lambda I <> 2 /\ 1 <= num_rounds I) \/
   (i_aes I = mkAes 24 16 2 416 /\ digest_size I = 48 /\ lambda I <> 2 /\ 1 <= num_rounds I) \/
   (i_aes I = mkAes 32 16 2 500 /\ digest_size I = 64 /\ lambda I <> 2 /\ 1 <= num_rounds I)) /\
  2 * seed_size I = digest_size I /\
  (exists k, 4 <= k <= 8 /\ num_parties I = 2 ^ k) /\
  (lambda I = 4 \/ lambda I = 5 \/ lambda I = 6).
Proof. exact builtin_facts. Qed.
Print Assumptions C36_table_consistent.
Example C36_case : exists I, builtin I /\ num_parties I = 256.
Proof. eexists. split; [exists 17%Z; reflexivity|reflexivity]. Qed.

(** The theorems about signing, verifying and signatures are stated for regular parameter sets (FreeSpec); the built-in ones are
    regular, and so are others. *)
Theorem C36_builtin_regular : forall I, builtin I -> regular I.
Proof. exact builtin_regular. Qed.
Print Assumptions C36_builtin_regular.
Example C36_regular_case : regular (mkInst (mkAes 16 16 1 200) 20 13 3 2 8 25 2 99) /\ ~ builtin (mkInst (mkAes 16 16 1 200) 20 13 3 2 8 25 2 99).
Proof.
  split; [|intros B; destruct (builtin_facts _ B) as (_ & _ & Q & _); discriminate Q].
  split; [split; cbn|cbn; lia|exists 1; split; [reflexivity|lia]]; try (left; reflexivity); try reflexivity; lia.
Qed.

(** C37: the lookup succeeds exactly on 1..23 and throws elsewhere ... *)
Theorem C37_lookup_domain : forall p,
  ((0 < p < 24)%Z -> exists I, banquet_instance_get p = Ok I) /\
  ((p <= 0 \/ 24 <= p)%Z -> banquet_instance_get p = Throw EInvalidSet).
Proof. exact params_valid. Qed.
Print Assumptions C37_lookup_domain.
(** ... the instance returned names the parameter set asked for, except for L1_Param7 and L1_Param8 ... *)
Theorem C37_self_identification_partial : forall p I,
  banquet_instance_get p = Ok I -> p <> 7%Z -> p <> 8%Z -> Z.of_nat (i_params I) = p.
Proof. exact params_self. Qed.
Print Assumptions C37_self_identification_partial.
(** ... for which the full property is false: Banquet_L1_Param7 (7) answers 8, and 8 answers 7. *)
Theorem C37_self_identification_refuted :
  exists p I, banquet_instance_get p = Ok I /\ Z.of_nat (i_params I) <> p.
Proof. exists 7%Z. eexists. split; [reflexivity|]. discriminate. Qed.
Print Assumptions C37_self_identification_refuted.

(** C48: ceil_log2 is the exact rounded-up logarithm on every uint32_t, with either clz. *)
Theorem C48_ceil_log2 : forall x, (1 <= x < 2^32)%N ->
  let k := ceil_log2 x in (x <= 2^k /\ forall j, x <= 2^j -> k <= j)%N.
Proof. exact ceil_log2_spec. Qed.
Print Assumptions C48_ceil_log2.
Theorem C48_ceil_log2_zero : ceil_log2 0 = 0%N.
Proof. exact eq_refl. Qed.
Print Assumptions C48_ceil_log2_zero.
Theorem C48_portable_clz : forall x, (x < 2^32)%N -> clz_portable x = clz x.
Proof. exact clz_portable_ok. Qed.
Print Assumptions C48_portable_clz.
Example C48_case : ceil_log2 1 = 0%N /\ ceil_log2 64 = 6%N /\ ceil_log2 65 = 7%N /\ ceil_log2 0xffffffff = 32%N.
Proof. vm_compute. auto. Qed.
