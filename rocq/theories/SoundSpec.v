(** Challenges and provers that go without the key: the specification used by C78.  A prover chooses, in this order, the S-box
    values and tapes of all repetitions; with the coefficients known, the corrections of P; with the evaluation points known, one
    party per repetition that it will not have to open (banquet_sign, banquet.cpp:347-724, draws its challenges in this order). *)
From Coq Require Import Arith NArith List Bool.
From Verif Require Import Prelude FieldModel FieldSpec Instances ExtractSpec.
Import ListNotations.

(** the numbers of possible field elements, and of possible evaluation points *)
Definition field_size (I : instance) : nat := 256 ^ lambda I.
Definition num_points (I : instance) : nat := field_size I - m2 I.
(** coefficients, evaluation points and closed parties of all repetitions *)
Definition coef_challenge (I : instance) (rss : list (list N)) : Prop :=
  length rss = num_rounds I /\ Forall (fun rs => length rs = m1 I /\ Forall (elt (lambda I)) rs) rss.
Definition point_challenge (I : instance) (c : fctx) (Rs : list N) : Prop :=
  length Rs = num_rounds I /\ Forall (fun R => elt (lambda I) R /\ ~ In R (get_first_n_field_elements c (m2 I))) Rs.
Definition party_challenge (I : instance) (ps : list nat) : Prop :=
  length ps = num_rounds I /\ Forall (fun p => p < num_parties I) ps.

(** S-box inputs, S-box outputs and tapes of repetition e; the corrections; the guessed parties *)
Record prover := mkProver {
  pv_in : nat -> bytes;
  pv_out : nat -> bytes;
  pv_tape : nat -> nat -> N;
  pv_delta : list (list N) -> nat -> nat -> N;
  pv_guess : list (list N) -> list N -> nat -> nat
}.
(** repetition e is passed: the coefficients or the point are bad, or the closed party is the one guessed *)
Definition passes (I : instance) (c : fctx) (V : prover) (rss : list (list N)) (Rs : list N) (ps : list nat) (e : nat) : Prop :=
  bad_coefs I c (nth e rss []) (pv_in V e) (pv_out V e) \/
  bad_point I c (nth e rss []) (pv_in V e) (pv_out V e) (pv_tape V e) (pv_delta V rss e) (nth e Rs 0%N) \/
  nth e ps 0 = pv_guess V rss Rs e.
(** at k of the repetitions at least *)
Definition at_least (k T : nat) (P : nat -> Prop) : Prop := exists es, NoDup es /\ length es = k /\ forall e, In e es -> e < T /\ P e.
