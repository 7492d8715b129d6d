(** FIPS-197 (AES), written from the standard and independently of aes.cpp.
    Bytes are [N]; words are lists of 4 bytes; a state is the list s with s[r + 4c] = row r, column c. *)
From Coq Require Import Arith NArith List Bool Lia.
Import ListNotations.
Local Open Scope N_scope.

(** 4.2.1 multiplication by x, and products in GF(2^8) *)
Definition xtime (b : N) : N :=
  if N.testbit b 7 then N.lxor (N.land (N.shiftl b 1) 0xff) 0x1b else N.shiftl b 1.
Fixpoint fmul_bits (n : nat) (a b : N) : N :=
  match n with
  | O => 0
  | S k => N.lxor (if N.testbit b 0 then a else 0) (fmul_bits k (xtime a) (N.shiftr b 1))
  end.
Definition fmul (a b : N) : N := fmul_bits 8 a b.

(** 4.2: multiplicative inverse, 0 for 0 (5.1.1) *)
Definition finv8 (a : N) : N :=
  match find (fun b => fmul a b =? 1) (map N.of_nat (seq 0 256)) with Some b => b | None => 0 end.

(** 5.1.1: affine transformation b'_i = b_i + b_(i+4) + b_(i+5) + b_(i+6) + b_(i+7) + c_i, c = 0x63 *)
Definition affine_bit (b : N) (i : nat) : bool :=
  let bt k := N.testbit b (N.of_nat ((i + k) mod 8)) in
  xorb (bt 0%nat) (xorb (bt 4%nat) (xorb (bt 5%nat) (xorb (bt 6%nat) (xorb (bt 7%nat) (N.testbit 0x63 (N.of_nat i)))))).
Definition affine (b : N) : N :=
  fold_right N.add 0 (map (fun i => if affine_bit b i then 2 ^ N.of_nat i else 0) (seq 0 8)).
Definition sbox (a : N) : N := affine (finv8 a).

Definition at_ (s : list N) (r c : nat) : N := nth (r + 4 * c) s 0.
Definition mkstate (f : nat -> nat -> N) : list N :=
  map (fun i => f (i mod 4)%nat (i / 4)%nat) (seq 0 16).

Definition sub_bytes (s : list N) : list N := map sbox s.
Definition shift_rows (s : list N) : list N := mkstate (fun r c => at_ s r ((c + r) mod 4)).
(** 5.1.3 *)
Definition mix_columns (s : list N) : list N :=
  mkstate (fun r c =>
    N.lxor (fmul 2 (at_ s r c)) (N.lxor (fmul 3 (at_ s ((r + 1) mod 4) c))
      (N.lxor (at_ s ((r + 2) mod 4) c) (at_ s ((r + 3) mod 4) c)))).
Fixpoint xor_bytes (a b : list N) : list N :=
  match a, b with x :: a', y :: b' => N.lxor x y :: xor_bytes a' b' | _, _ => [] end.
Definition add_round_key (s k : list N) : list N := xor_bytes s k.

(** 5.2 Key expansion.  Words are produced in order; the list is kept most recent first. *)
Definition sub_word (w : list N) : list N := map sbox w.
Definition rot_word (w : list N) : list N := match w with a :: r => r ++ [a] | [] => [] end.
Fixpoint rcon_byte (i : nat) : N := (* x^(i-1) *)
  match i with O => 0 | S O => 1 | S k => xtime (rcon_byte k) end.
Definition rcon (i : nat) : list N := [rcon_byte i; 0; 0; 0].
(** the word fed to SubWord at step i, if any *)
Definition sub_input (nk i : nat) (prev : list N) : option (list N) :=
  if (i mod nk =? 0)%nat then Some (rot_word prev)
  else if ((6 <? nk) && (i mod nk =? 4))%nat then Some prev
  else None.
Definition next_word (nk i : nat) (ws : list (list N)) : list N :=
  let prev := nth 0 ws [] in
  let temp := if (i mod nk =? 0)%nat then xor_bytes (sub_word (rot_word prev)) (rcon (i / nk))
              else if ((6 <? nk) && (i mod nk =? 4))%nat then sub_word prev
              else prev in
  xor_bytes (nth (nk - 1) ws []) temp.
Fixpoint expand (nk i n : nat) (ws : list (list N)) : list (list N) :=
  match n with O => ws | S k => expand nk (S i) k (next_word nk i ws :: ws) end.
Fixpoint words (n : nat) (l : list N) : list (list N) :=
  match n with O => [] | S k => firstn 4 l :: words k (skipn 4 l) end.
(** the Nr+1 round keys of 16 bytes *)
Definition nr_of (nk : nat) : nat := (nk + 6)%nat.
Definition all_words (nk : nat) (key : list N) : list (list N) :=
  rev (expand nk nk (4 * (nr_of nk + 1) - nk) (rev (words nk key))).
Definition round_key (nk : nat) (key : list N) (i : nat) : list N :=
  concat (firstn 4 (skipn (4 * i) (all_words nk key))).

(** 5.1 Cipher *)
Definition round (s k : list N) : list N := add_round_key (mix_columns (shift_rows (sub_bytes s))) k.
Definition final_round (s k : list N) : list N := add_round_key (shift_rows (sub_bytes s)) k.
Fixpoint state_after (nk : nat) (key pt : list N) (i : nat) : list N :=
  match i with
  | O => add_round_key pt (round_key nk key 0)
  | S k => round (state_after nk key pt k) (round_key nk key i)
  end.
Definition cipher (nk : nat) (key pt : list N) : list N :=
  final_round (state_after nk key pt (nr_of nk - 1)) (round_key nk key (nr_of nk)).

(** the S-box inputs of one key expansion and of one block encryption *)
Definition key_sbox_inputs (nk : nat) (key : list N) : list N :=
  concat (map (fun i => match sub_input nk i (nth (i - 1) (all_words nk key) []) with Some w => w | None => [] end)
              (seq nk (4 * (nr_of nk + 1) - nk))).
Definition block_sbox_inputs (nk : nat) (key pt : list N) : list N :=
  concat (map (state_after nk key pt) (seq 0 (nr_of nk))).

(** the same inputs in the order used by Banquet: those of the key expansion, then for every block and every
    round the state read row by row *)
Definition rows (s : list N) : list N := map (fun i => at_ s (i / 4) (i mod 4)) (seq 0 16).
Definition sbox_trace (nk : nat) (key : list N) (blocks : list (list N)) : list N :=
  key_sbox_inputs nk key ++
  flat_map (fun pt => flat_map rows (map (state_after nk key pt) (seq 0 (nr_of nk)))) blocks.

(** ** The examples of FIPS-197 appendix C *)
Definition bytes_upto (n : nat) : list N := map N.of_nat (seq 0 n).
Definition c_pt : list N := map (fun i => N.of_nat i * 0x11) (seq 0 16).
Example fips197_C1 : cipher 4 (bytes_upto 16) c_pt =
  [0x69;0xc4;0xe0;0xd8;0x6a;0x7b;0x04;0x30;0xd8;0xcd;0xb7;0x80;0x70;0xb4;0xc5;0x5a].
Proof. vm_compute. reflexivity. Qed.
Example fips197_C2 : cipher 6 (bytes_upto 24) c_pt =
  [0xdd;0xa9;0x7c;0xa4;0x86;0x4c;0xdf;0xe0;0x6e;0xaf;0x70;0xa0;0xec;0x0d;0x71;0x91].
Proof. vm_compute. reflexivity. Qed.
Example fips197_C3 : cipher 8 (bytes_upto 32) c_pt =
  [0x8e;0xa2;0xb7;0xca;0x51;0x67;0x45;0xbf;0xea;0xfc;0x49;0x90;0x4b;0x49;0x60;0x89].
Proof. vm_compute. reflexivity. Qed.
