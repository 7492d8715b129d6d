(** How many strings of candidates do not yet contain enough acceptable ones (C77). *)
From Coq Require Import Arith List.
Import ListNotations.

(** the number of ways to choose k of n places *)
Fixpoint choose (n k : nat) : nat :=
  match n, k with
  | _, O => 1
  | O, S _ => 0
  | S n', S k' => choose n' k' + choose n' (S k')
  end.
(** If a of the a + b possible candidates are acceptable: the number of sequences of q candidates of which fewer than T
    are acceptable, by the places of the acceptable ones. *)
Definition late (a b T q : nat) : nat := list_sum (map (fun j => choose q j * a ^ j * b ^ (q - j)) (seq 0 T)).
