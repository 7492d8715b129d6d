(** Specification of the seed tree, independent of the layout code in tree.cpp. *)
From Coq Require Import Arith NArith List Bool Lia.
From Verif Require Import Prelude HashModel.
Import ListNotations.

(** Node 0 is the root; the children of node n are 2n+1 and 2n+2. *)
Definition parent (n : nat) : nat := (n - 1) / 2.
Definition is_right (n : nat) : bool := Nat.even n.

(** The seed of a child: the first or second half of the output of the hash on
    1 || parent's seed || salt || repetition || parent's number. *)
Definition child_seed (H : oracle) (salt : bytes) (rep : nat) (s : bytes) (n : nat) (right : bool) : bytes :=
  stream H (2 * length s =? 32) ([1%N] ++ s ++ salt ++ le16 rep ++ le16 n) (if right then length s else 0) (length s).

(** The seed of node n (the fuel n is enough, since the parent of n is smaller). *)
Fixpoint node_seed_fuel (H : oracle) (salt : bytes) (rep : nat) (root : bytes) (fuel n : nat) : bytes :=
  match fuel, n with
  | S f, S _ => child_seed H salt rep (node_seed_fuel H salt rep root f (parent n)) (parent n) (is_right n)
  | _, _ => root
  end.
Definition node_seed (H : oracle) (salt : bytes) (rep : nat) (root : bytes) (n : nat) : bytes :=
  node_seed_fuel H salt rep root n n.

(** depth of the leaves of a tree with N >= 1 leaves, and number of the first leaf *)
Definition depth (N : nat) : nat := Nat.log2_up N.
Definition first_leaf (N : nat) : nat := 2 ^ depth N - 1.
(** the seed of leaf i *)
Definition leaf_seed (H : oracle) (salt : bytes) (rep : nat) (root : bytes) (N i : nat) : bytes :=
  node_seed H salt rep root (first_leaf N + i).

(** a is n or one of its ancestors *)
Inductive ancestor (a : nat) : nat -> Prop :=
| anc_refl : ancestor a a
| anc_up n : n <> 0 -> ancestor a (parent n) -> ancestor a n.
