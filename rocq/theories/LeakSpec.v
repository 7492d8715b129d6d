(** What someone who sees which table entries are read can compute (C60), written with the AES of AesSpec only. *)
From Coq Require Import Arith NArith List Bool.
From Verif Require Import AesSpec.
Import ListNotations.
Local Open Scope N_scope.

(** number of S-boxes in the key expansion *)
Definition schedule_sboxes (nk : nat) : nat := match nk with 4 => 40 | 6 => 32 | _ => 52 end%nat.
(** the state whose rows are l *)
Definition unrows (l : list N) : list N := mkstate (fun r c => nth (4 * r + c) l 0).
(** the inputs of the S-boxes in the first and in the second round of the first block give the first two round keys, and these
    contain the key *)
Definition key_of_trace (nk : nat) (pt s : list N) : list N :=
  let st0 := unrows (firstn 16 (skipn (schedule_sboxes nk) s)) in
  let st1 := unrows (firstn 16 (skipn (schedule_sboxes nk + 16) s)) in
  firstn (4 * nk) (xor_bytes st0 (firstn 16 pt) ++ xor_bytes st1 (mix_columns (shift_rows (sub_bytes st0)))).
(** lookups 2(m2*j + k) and 2(m2*j + k) + 1 are input and output of S-box j + m1*k *)
Definition trace_of_lookups (m1 m2 : nat) (l : list N) : list N :=
  map (fun i => nth (2 * (m2 * (i mod m1) + i / m1)) l 0) (seq 0 (m1 * m2)).
Definition inverses_of_lookups (m1 m2 : nat) (l : list N) : list N :=
  map (fun i => nth (2 * (m2 * (i mod m1) + i / m1) + 1) l 0) (seq 0 (m1 * m2)).
(** the lookups of one repetition: lookup 2(sb*p + i) is the share of party p of the input of S-box i *)
Definition xor_all (xs : list N) : N := fold_right N.lxor 0 xs.
Definition trace_of_shares (n sb : nat) (l : list N) : list N :=
  map (fun i => xor_all (map (fun p => nth (2 * (sb * p + i)) l 0) (seq 0 n))) (seq 0 sb).

(** The entries of the table have 8 bytes and lines of the cache 64: entry x is in line (x + a) / 8 of the table, where a < 8
    tells how the table is aligned. *)
Definition line (a x : N) : N := (x + a) / 8.
(** the bytes x for which x and its inverse are in given lines *)
Definition in_lines (a u v : N) : list N := filter (fun x => (line a x =? u) && (line a (finv8 x) =? v)) (map N.of_nat (seq 0 256)).
Fixpoint choices (ls : list (list N)) : list (list N) :=
  match ls with [] => [[]] | l :: ls => flat_map (fun x => map (cons x) (choices ls)) l end.
(** candidates for the first sixteen bytes of the key, computed from the lines of the lookups and the plaintext *)
Definition candidates (nk m1 m2 : nat) (a : N) (pt lines : list N) : list (list N) :=
  let s := trace_of_lookups m1 m2 lines in
  let t := inverses_of_lookups m1 m2 lines in
  map (fun st => xor_bytes (unrows st) (firstn 16 pt))
      (choices (map (fun i => in_lines a (nth i s 0) (nth i t 0)) (seq (schedule_sboxes nk) 16))).
