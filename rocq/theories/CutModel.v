(** Calls that are cut off: by an exception (the allocations of banquet.cpp:291-775 and 777-1194 may throw std::bad_alloc), by a jump
    out of a signal handler, or because the process forks while another thread is inside a call.  What is left of such a call
    is what it has written to the static members until then (ThreadModel). *)
From Coq Require Import Arith NArith List Bool.
From Verif Require Import Prelude FieldModel Instances HashModel TreeModel BanquetModel History ThreadModel.
Import ListNotations.

(** the static members after the first n accesses of a program (all of them, if it has fewer) *)
Fixpoint cut {A} (n : nat) (p : prog A) (m : mem) : mem :=
  match n, p with
  | S n', Rd l k => cut n' (k (m l)) m
  | S n', Wr l v q => cut n' q (store m l v)
  | _, _ => m
  end.
(** a history of calls, each cut off after a number of accesses *)
Fixpoint cut_off (impl : call -> prog (res answer)) (past : list (call * nat)) (m : mem) : mem :=
  match past with
  | [] => m
  | (x, n) :: past' => cut_off impl past' (cut n (call_prog impl x) m)
  end.
