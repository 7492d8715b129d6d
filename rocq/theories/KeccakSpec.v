(** FIPS 202 (SHA-3 standard), on bits: the permutation KECCAK-f[1600], the sponge construction, SHAKE128 and SHAKE256.
    Written from the standard, independently of the code.  A state array is a function of x, y < 5 and z < 64. *)
From Coq Require Import Arith NArith List Bool.
Import ListNotations.

Definition state := nat -> nat -> nat -> bool.
Definition w := 64.

(** section 3.1.2, 3.1.3: strings of 1600 bits and state arrays *)
Definition to_state (S : list bool) : state := fun x y z => nth (w * (5 * y + x) + z) S false.
Definition to_string (A : state) : list bool := map (fun i => A ((i / w) mod 5) (i / w / 5) (i mod w)) (seq 0 1600).

(** 3.2.1 *)
Definition theta (A : state) : state :=
  let C x z := xorb (xorb (xorb (xorb (A x 0 z) (A x 1 z)) (A x 2 z)) (A x 3 z)) (A x 4 z) in
  let D x z := xorb (C ((x + 4) mod 5) z) (C ((x + 1) mod 5) ((z + w - 1) mod w)) in
  fun x y z => xorb (A x y z) (D x z).
(** 3.2.2: after t steps the walk is at (x, y), and lane (x, y) is moved by (t + 1)(t + 2)/2 *)
Fixpoint rho_walk (t : nat) : nat * nat :=
  match t with O => (1, 0) | S t' => let '(x, y) := rho_walk t' in (y, (2 * x + 3 * y) mod 5) end.
Definition rho_offset (x y : nat) : nat :=
  match find (fun t => let '(x', y') := rho_walk t in (x =? x') && (y =? y')) (seq 0 24) with
  | Some t => ((t + 1) * (t + 2) / 2) mod w
  | None => 0
  end.
Definition rho (A : state) : state := fun x y z => A x y ((z + w - rho_offset x y) mod w).
(** 3.2.3 *)
Definition pi (A : state) : state := fun x y z => A ((x + 3 * y) mod 5) x z.
(** 3.2.4 *)
Definition chi (A : state) : state := fun x y z => xorb (A x y z) (negb (A ((x + 1) mod 5) y z) && A ((x + 2) mod 5) y z).
(** 3.2.5, algorithm 5: R is a list of eight bits *)
Definition rc_step (R : list bool) : list bool :=
  let R := false :: R in
  let r i := nth i R false in
  [xorb (r 0) (r 8); r 1; r 2; r 3; xorb (r 4) (r 8); xorb (r 5) (r 8); xorb (r 6) (r 8); r 7].
Definition rc (t : nat) : bool := nth 0 (Nat.iter (t mod 255) rc_step [true; false; false; false; false; false; false; false]) false.
(** algorithm 6: bit z of RC for round ir is rc(j + 7 ir) where z = 2^j - 1 for a j <= 6, and 0 elsewhere *)
Definition RC (ir z : nat) : bool :=
  match find (fun j => 2 ^ j - 1 =? z) (seq 0 7) with Some j => rc (j + 7 * ir) | None => false end.
Definition iota (ir : nat) (A : state) : state := fun x y z => if (x =? 0) && (y =? 0) then xorb (A x y z) (RC ir z) else A x y z.
(** 3.3, 3.4 *)
Definition Rnd (A : state) (ir : nat) : state := iota ir (chi (pi (rho (theta A)))).
Definition keccak_f (S : list bool) : list bool := to_string (fold_left Rnd (seq 0 24) (to_state S)).

(** 5.1 *)
Definition pad10s1 (r m : nat) : list bool := [true] ++ repeat false ((2 * r - m mod r - 2) mod r) ++ [true].
(** section 4 with f = KECCAK-f[1600], b = 1600 *)
Definition xor_bits (a b : list bool) : list bool := map (fun p => xorb (fst p) (snd p)) (combine a b).
Fixpoint absorb (r n : nat) (S P : list bool) : list bool :=
  match n with
  | O => S
  | S n' => absorb r n' (keccak_f (xor_bits S (firstn r P ++ repeat false (1600 - r)))) (skipn r P)
  end.
Fixpoint squeeze (r n : nat) (S : list bool) : list bool :=
  match n with O => [] | S n' => firstn r S ++ squeeze r n' (keccak_f S) end.
(** d bits of output: as many blocks as are needed, truncated *)
Definition sponge (r : nat) (N : list bool) (d : nat) : list bool :=
  let P := N ++ pad10s1 r (length N) in
  firstn d (squeeze r (d / r + 1) (absorb r (length P / r) (repeat false 1600) P)).
(** 6.2 *)
Definition SHAKE128 (M : list bool) (d : nat) : list bool := sponge (1600 - 256) (M ++ [true; true; true; true]) d.
Definition SHAKE256 (M : list bool) (d : nat) : list bool := sponge (1600 - 512) (M ++ [true; true; true; true]) d.

(** B.1: byte strings as bit strings, least significant bit first *)
Definition byte_bits (b : N) : list bool := map (fun i => N.testbit b (N.of_nat i)) (seq 0 8).
Definition bits_of (bs : list N) : list bool := concat (map byte_bits bs).
