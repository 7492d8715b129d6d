(** What FIPS 202 says a hash of a bit string is (sections 4, 5.1, 6 and B.1), for an arbitrary permutation f of states of
    200 bytes.  Independent of the model.  Bits, padding and (for KECCAK-f) the whole function are those of KeccakSpec. *)
From Coq Require Import Arith NArith List Bool.
From Verif Require KeccakSpec.
From Verif Require Import Prelude SpongeSpec.
Import ListNotations.

(** bit strings and byte strings: the least significant bit of a byte comes first (B.1) *)
Notation bits_of_byte := KeccakSpec.byte_bits.
Notation bits_of := KeccakSpec.bits_of.
Definition byte_of_bits (l : list bool) : N := fold_right (fun b x => (N.b2n b + 2 * x)%N) 0%N l.
Fixpoint pack (n : nat) (l : list bool) : list N :=
  match n with O => [] | S n' => byte_of_bits (firstn 8 l) :: pack n' (skipn 8 l) end.
(** pad10*1, 5.1 *)
Notation pad10star1 := KeccakSpec.pad10s1.
(** the padded string, as bytes; the rate has 8 * rb bits *)
Definition padded (rb : nat) (n : list bool) : list N :=
  let p := n ++ pad10star1 (8 * rb) (length n) in pack (length p / 8) p.
(** output byte i of the sponge with rate 8 * rb on the bit string n (algorithm 8) *)
Definition keccak_byte (f : list N -> list N) (rb : nat) (n : list bool) (i : nat) : N :=
  let p := padded rb n in
  nth (i mod rb) (Nat.iter (i / rb) f (absorb_n f rb (length p / rb) (repeat 0%N 200) p)) 0%N.
(** the bits that a byte delimited by a one stands for: those below its highest set bit *)
Definition suffix_bits (s : N) : list bool := firstn (N.to_nat (N.log2 s)) (bits_of_byte s).
(** the bits given by updates: the first n bits of each buffer *)
Definition message (ups : list (bytes * N)) : list bool := concat (map (fun u => firstn (N.to_nat (snd u)) (bits_of (fst u))) ups).
(** n bytes of the output from position i on *)
Definition outputs (g : nat -> N) (i n : nat) : list N := map g (seq i n).

(** ** the interface *)

(** HashReturn, KeccakHash.h:33-37; KECCAK_BAD_HASHLEN is returned by no function *)
Inductive status : Type := Success | Fail.
(** the macros of KeccakHash.h:70-104 *)
Inductive algorithm : Type := Shake128 | Shake256 | Sha3_224 | Sha3_256 | Sha3_384 | Sha3_512.
(** calls of Keccak_HashUpdate (a buffer, a number of bits), Keccak_HashFinal and Keccak_HashSqueeze (a number of bits) *)
Inductive call : Type := Update (d : bytes) (nbits : N) | Final | Squeeze (nbits : N).
(** the same with the suffix times4 *)
Inductive call4 : Type := Update4 (ds : list bytes) (nbits : N) | Final4 | Squeeze4 (nbits : N).
Definition update (u : bytes * N) : call := Update (fst u) (snd u).
(** what Keccak_HashInitialize accepts *)
Definition sound (rate capacity suffix : N) : Prop := (rate + capacity = 1600 /\ 0 < rate /\ rate mod 8 = 0 /\ suffix <> 0)%N.
(** FIPS 202, 6.1 and 6.2: capacity, suffix, and length of the digest in bits (SHAKE: none) *)
Definition capacity_of (a : algorithm) : nat :=
  match a with Shake128 => 256 | Shake256 => 512 | Sha3_224 => 448 | Sha3_256 => 512 | Sha3_384 => 768 | Sha3_512 => 1024 end.
Definition domain_of (a : algorithm) : list bool :=
  match a with Shake128 | Shake256 => [true; true; true; true] | _ => [false; true] end.
Definition digest_of (a : algorithm) : nat :=
  match a with Shake128 | Shake256 => 0 | Sha3_224 => 224 | Sha3_256 => 256 | Sha3_384 => 384 | Sha3_512 => 512 end.
(** SHA3-224(M), ..., SHAKE256(M, d) with d bits of output *)
Definition fips202 (a : algorithm) (M : list bool) (d : nat) : list bool := KeccakSpec.sponge (1600 - capacity_of a) (M ++ domain_of a) d.

(** an update that the sizes of the machine can cope with: bytes, a buffer as long as said, and less than 2^32 - 200 bytes *)
Definition fits (u : bytes * N) : Prop :=
  Forall (fun b => b < 256)%N (fst u) /\ (snd u <= 8 * N.of_nat (length (fst u)))%N /\ (snd u / 8 + 200 <= 2 ^ 32)%N.
Definition whole_bytes (u : bytes * N) : Prop := (snd u mod 8 = 0)%N.
(** what a sequence of calls returns and writes once output has begun, off bytes of the stream g having been put out: no
    more input, no second end; output in whole bytes only; a call that fails changes nothing *)
Fixpoint answers (g : nat -> N) (off : nat) (cs : list call) : list (status * list N) :=
  match cs with
  | [] => []
  | Squeeze q :: cs' =>
    if N.eqb (q mod 8) 0 then (Success, outputs g off (N.to_nat (q / 8))) :: answers g (off + N.to_nat (q / 8)) cs'
    else (Fail, []) :: answers g off cs'
  | _ :: cs' => (Fail, []) :: answers g off cs'
  end.
(** every request for output is below 2^32 - 200 bytes *)
Definition modest (c : call) : Prop := match c with Squeeze q => (q / 8 + 200 <= 2 ^ 32)%N | _ => True end.
(** the i-th of four *)
Definition lane (i : nat) (c : call4) : call :=
  match c with Update4 ds n => Update (nth i ds ([] : bytes)) n | Final4 => Final | Squeeze4 q => Squeeze q end.
(** four buffers of equal length, a number of bits divisible by 8 *)
Definition even4 (c : call4) : Prop :=
  match c with Update4 ds n => (length ds = 4 /\ exists L, Forall (fun d => length d = L) ds) /\ (n mod 8 = 0)%N | _ => True end.
Definition update4 (u : list bytes * N) : call4 := Update4 (fst u) (snd u).
(** what four-way updates give to the i-th of four *)
Definition lane_data (i : nat) (ups : list (list bytes * N)) : list (bytes * N) := map (fun u => (nth i (fst u) ([] : bytes), snd u)) ups.
