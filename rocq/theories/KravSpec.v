(** Compression of the Farfalle construction over Keccak-p[1600, 6] (Bertoni, Daemen, Hoffert, Peeters, Van Assche, Van Keer,
    "Farfalle: parallel permutation-based cryptography"), with the linear rolling function that Kravatte uses for compression.
    A state is 25 words of 64 bits.  Nothing here models a specific function of /repo. *)
From Coq Require Import Arith NArith List Bool.
From Verif Require Import Prelude KeccakSpec StateSpec.
Import ListNotations.

(** x rotated to the left by r places, 0 < r < 64 *)
Definition rotated (x r : N) : N := N.lxor ((x * 2 ^ r) mod 2 ^ 64) (x / 2 ^ (64 - r)).
(** one step of the rolling function: the last five words (a, b, c, d, e) become (b, c, d, e, a <<< 7 + b + b >> 3) *)
Definition rolled (k : list N) : list N :=
  let w i := nth i k 0%N in
  firstn 20 k ++ [w 21; w 22; w 23; w 24; N.lxor (N.lxor (rotated (w 20) 7) (w 21)) (N.div (w 21) (2 ^ 3))].
(** words and the bytes they are stored as, lowest first *)
Definition word_of (b : bytes) : N := fold_right (fun x acc => x + 256 * acc)%N 0%N b.
Definition words_of (b : bytes) : list N := map (fun j => word_of (part b (8 * j) 8)) (seq 0 25).
Definition stored (ws : list N) : bytes := flat_map (fun w => map (fun j => (w / 256 ^ N.of_nat j) mod 256)%N (seq 0 8)) ws.
Definition permuted6 (ws : list N) : list N := words_of (bytes_of (keccak_p 6 (bits_of (stored ws)))).
Definition added (a b : list N) : list N := map (fun p => N.lxor (fst p) (snd p)) (combine a b).
(** Block t of the data, of 200 bytes, is added to the key rolled t times and permuted; all the results are added to the accumulator *)
Definition compressed (acc key : list N) (d : bytes) (blocks : nat) : list N :=
  fold_left (fun acc t => added acc (permuted6 (added (Nat.iter t rolled key) (words_of (part d (200 * t) 200))))) (seq 0 blocks) acc.
