(** Parameters a caller may choose freely (as /repo/tools/bench_free.cpp lets them). *)
From Coq Require Import Arith NArith List.
From Verif Require Import Instances.
Import ListNotations.

(** One of the three AES variants, a supported field, as many polynomial points as S-boxes, and 2 to 65535 parties; the number of
    repetitions, the digest size and the parameter number are arbitrary. *)
Record proper (I : instance) : Prop := mkProper {
  pr_aes : In (i_aes I) [mkAes 16 16 1 200; mkAes 24 16 2 416; mkAes 32 16 2 500];
  pr_lambda : In (lambda I) [2; 4; 5; 6];
  pr_sboxes : m1 I * m2 I = num_sboxes (i_aes I);
  pr_seed : 1 <= seed_size I <= 32;
  pr_parties : 2 <= num_parties I /\ N.lt (N.of_nat (num_parties I)) 65536 }.
(** Such parameters with at least one repetition and 2, 4, 8, ... or 256 parties: the built-in sets and many more. *)
Record regular (I : instance) : Prop := mkRegular {
  rg_proper : proper I;
  rg_rounds : 1 <= num_rounds I;
  rg_power : exists k, num_parties I = 2 ^ k /\ k <= 8 }.
(** The number of parties is at most 15 below a power of two. *)
Definition near_power (n : nat) : Prop := exists k, n <= 2 ^ k < n + 16.
