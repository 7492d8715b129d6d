(** Specification for C57: what the operating system may do, and which bytes it has delivered. *)
From Coq Require Import Arith NArith List.
From Verif Require Import Prelude RandModel.
Import ListNotations.

(** The kernel stores bytes, no more than it was asked for. *)
Definition kernel_ok (o : os) : Prop := forall i n,
  (forall d, os_read o i n = RData d -> length d <= n /\ is_bytes d) /\ (forall d, os_getrandom o i n = RData d -> length d <= n /\ is_bytes d).
(** [delivered o i i' n d]: calls number i, ..., i'-1 are read calls, each asking for what is missing of n bytes, and d is what
    they stored, in order. *)
Inductive delivered (o : os) : nat -> nat -> nat -> bytes -> Prop :=
| del_none i n : delivered o i i n []
| del_error i i' n b d : os_read o i n = RError b -> delivered o (S i) i' n d -> delivered o i i' n d
| del_read i i' n d d' : os_read o i n = RData d -> delivered o (S i) i' (n - length d) d' -> delivered o i i' n (d ++ d').

(** what the documentation of the two library functions promises: they store no more than asked for, and all of it if they
    report success *)
Definition library_ok (l : library) : Prop := forall i n, length (snd (l i n)) <= n /\ is_bytes (snd (l i n)) /\ (fst (l i n) = true -> length (snd (l i n)) = n).
