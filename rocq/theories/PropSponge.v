(** C29-C31: hashing through kdf_shake.h is independent of how input and output are split, and four-way hashing is four
    times scalar hashing.  For every permutation f of 200-byte states.  Specification: SpongeSpec (shake_byte: padding,
    absorbing, squeezing of FIPS 202 on byte strings); hash_run: init, updates, final, squeezes. *)
From Coq Require Import Arith NArith List Bool Lia.
From Verif Require Import Prelude SpongeModel SpongeSpec HashModel SpongeFacts SpongeApi Sponge4Facts SpongeCases.
Import ListNotations.

Definition keeps_length (f : bytes -> bytes) : Prop := forall st : bytes, length st = 200 -> length (f st) = 200.
Definition keeps_bytes (f : bytes -> bytes) : Prop := forall st, is_bytes st -> is_bytes (f st).

(** Any splitting of any input (each call below 2^32 - 200 bytes, the number of calls and so the total unbounded): the
    pieces put out are those of SHAKE of the concatenation.  Missing: calls of about 4 GiB or more; see C29_lengths. *)
Theorem C29_split_partial : forall f digest chunks lens, keeps_length f ->
  Forall (fun d => (N.of_nat (length d) + 200 <= 2 ^ 32)%N) chunks -> Forall (fun n => (N.of_nat n + 200 <= 2 ^ 32)%N) lens ->
  exists fuel0, forall fuel, fuel0 <= fuel ->
    hash_run f fuel digest chunks lens = Ok (pieces (shake f (digest =? 32) (concat chunks)) 0 lens).
Proof. exact (fun f digest chunks lens Hf => run_ok f Hf digest chunks lens). Qed.
Print Assumptions C29_split_partial.

(** What the last of a sequence of updates does for every length below 2^61 (where size << 3 overflows): nothing is left
    out.  Below: it works, it never returns, it writes outside the state. *)
Theorem C29_lengths : forall f digest chunks d lens, keeps_length f ->
  Forall (fun d => (N.of_nat (length d) + 200 <= 2 ^ 32)%N) chunks -> (N.of_nat (length d) < 2 ^ 61)%N ->
  Forall (fun n => (N.of_nat n + 200 <= 2 ^ 32)%N) lens ->
  let v := digest =? 32 in let rate := shake_rate v in let pos := length (concat chunks) mod rate in
  exists fuel0, forall fuel, fuel0 <= fuel ->
    (pos = 0 \/ good_length rate pos (N.of_nat (length d)) ->
       hash_run f fuel digest (chunks ++ [d]) lens = Ok (pieces (shake f v (concat chunks ++ d)) 0 lens)) /\
    (pos <> 0 -> (2 ^ 32 <= N.of_nat (length d))%N -> (N.of_nat (length d) mod 2 ^ 32 + N.of_nat pos < N.of_nat rate)%N ->
       hash_run f fuel digest (chunks ++ [d]) lens = OutOfFuel) /\
    (pos <> 0 -> (2 ^ 32 <= N.of_nat (length d) mod 2 ^ 32 + N.of_nat pos)%N ->
       hash_run f fuel digest (chunks ++ [d]) lens = UB OutOfBounds) /\
    (pos = 0 \/ good_length rate pos (N.of_nat (length d)) \/
     (pos <> 0 /\ (2 ^ 32 <= N.of_nat (length d))%N /\ (N.of_nat (length d) mod 2 ^ 32 + N.of_nat pos < N.of_nat rate)%N) \/
     (pos <> 0 /\ (2 ^ 32 <= N.of_nat (length d) mod 2 ^ 32 + N.of_nat pos)%N)).
Proof. exact (fun f digest chunks d lens Hf => all_lengths' f Hf digest chunks d lens). Qed.
Print Assumptions C29_lengths.

(** C29 as stated is false: 1 + 2^32 bytes can be absorbed at once, but not as 1 byte followed by 2^32 bytes. *)
Theorem C29_refuted : exists (a b : bytes) (digest : nat), forall f, keeps_length f ->
  (exists fuel0, forall fuel, fuel0 <= fuel -> exists o, hash_run f fuel digest [a ++ b] [32] = Ok o) /\
  (exists fuel0, forall fuel, fuel0 <= fuel -> hash_run f fuel digest [a; b] [32] = OutOfFuel).
Proof. exact split_matters. Qed.
Print Assumptions C29_refuted.

(** The hash functions of HashModel, on which the models of the rest of the code rest, with H := shake f *)
Theorem C29_oracle : forall f digest chunks lens, keeps_length f -> keeps_bytes f -> Forall is_bytes chunks ->
  Forall (fun d => (N.of_nat (length d) + 200 <= 2 ^ 32)%N) chunks -> Forall (fun n => (N.of_nat n + 200 <= 2 ^ 32)%N) lens ->
  exists fuel0, forall fuel, fuel0 <= fuel ->
    hash_run f fuel digest chunks lens =
    Ok (oracle_run (shake f) (hash_final (fold_left hash_update chunks (hash_init digest))) lens).
Proof. exact (fun f digest chunks lens Hf Hb => refines_oracle' f Hf digest chunks lens Hb). Qed.
Print Assumptions C29_oracle.

(** However the output is requested, the same stream comes out: byte i of it is byte i of SHAKE of the input. *)
Theorem C30_stream_partial : forall f digest chunks lens, keeps_length f ->
  Forall (fun d => (N.of_nat (length d) + 200 <= 2 ^ 32)%N) chunks -> Forall (fun n => (N.of_nat n + 200 <= 2 ^ 32)%N) lens ->
  exists fuel0, forall fuel, fuel0 <= fuel -> exists outs,
    hash_run f fuel digest chunks lens = Ok outs /\ map (@length N) outs = lens /\
    concat outs = map (shake f (digest =? 32) (concat chunks)) (seq 0 (list_sum lens)).
Proof. exact (fun f digest chunks lens Hf => one_stream' f Hf digest chunks lens). Qed.
Print Assumptions C30_stream_partial.

(** Squeezing 2^32 bytes at once never returns, though squeezing the same number of bytes in two calls does. *)
Theorem C30_refuted : exists n1 n2 : nat, forall f digest chunks, keeps_length f ->
  Forall (fun d => (N.of_nat (length d) + 200 <= 2 ^ 32)%N) chunks ->
  (exists fuel0, forall fuel, fuel0 <= fuel -> exists o, hash_run f fuel digest chunks [n1; n2] = Ok o) /\
  (exists fuel0, forall fuel, fuel0 <= fuel -> hash_run f fuel digest chunks [n1 + n2] = OutOfFuel).
Proof. exact squeeze_split_matters. Qed.
Print Assumptions C30_refuted.

(** Lane i of a four-way computation is the scalar computation on the i-th inputs: for all inputs of equal lengths, all
    splittings, and whatever the outcome (also overrunning and never returning). *)
Theorem C31_lanes : forall f fuel digest (chunks : list (list bytes)) lens i, keeps_length f -> i < 4 ->
  Forall (fun ds => length ds = 4 /\ exists L, Forall (fun d => length d = L) ds) chunks ->
  hash_run f fuel digest (map (fun ds => nth i ds []) chunks) lens =
  rmap (map (fun outs => nth i outs [])) (hash_run_x4 f fuel digest chunks lens).
Proof. exact (fun f fuel digest chunks lens i Hf => four_lanes' f Hf fuel digest chunks lens i). Qed.
Print Assumptions C31_lanes.
(** so that it puts out SHAKE of each input *)
Theorem C31_output : forall f digest (chunks : list (list bytes)) lens, keeps_length f ->
  Forall (fun ds => length ds = 4 /\ exists L, Forall (fun d => length d = L) ds /\ (N.of_nat L + 200 <= 2 ^ 32)%N) chunks ->
  Forall (fun n => (N.of_nat n + 200 <= 2 ^ 32)%N) lens ->
  exists fuel0, forall fuel, fuel0 <= fuel -> exists outs, hash_run_x4 f fuel digest chunks lens = Ok outs /\
    forall i, i < 4 -> map (fun o => nth i o []) outs = pieces (shake f (digest =? 32) (concat (map (fun ds => nth i ds []) chunks))) 0 lens.
Proof. exact (fun f digest chunks lens Hf => four_outputs' f Hf digest chunks lens). Qed.
Print Assumptions C31_output.

(** The hypotheses are met, e.g. by reversing the state; three updates crossing a block boundary, three squeezes. *)
Example C29_case : keeps_length (@rev N) /\ keeps_bytes (@rev N) /\
  hash_run (@rev N) 1000 32 [repeat 1%N 100; []; repeat 2%N 200] [3; 0; 170] =
  Ok (pieces (shake (@rev N) true (repeat 1%N 100 ++ repeat 2%N 200)) 0 [3; 0; 170]) /\
  hash_run (@rev N) 1000 64 [repeat 1%N 135] [3; 4] = Ok (pieces (shake (@rev N) false (repeat 1%N 135)) 0 [3; 4]).
Proof. exact rev_case. Qed.
Example C31_case : exists o, hash_run_x4 (@rev N) 1000 32 [repeat [7%N] 4; [repeat 1%N 170; repeat 2%N 170; repeat 3%N 170; repeat 4%N 170]] [3; 170] = Ok o /\
  nth 0 (nth 1 o []) [] <> nth 3 (nth 1 o []) [].
Proof. exact rev_case4. Qed.
