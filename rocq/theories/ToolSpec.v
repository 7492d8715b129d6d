(** Specification for C65: decimal numerals, and the random source the benchmark programs run with. *)
From Coq Require Import String Arith NArith List.
From Verif Require Import Prelude Instances HashModel BanquetModel BanquetApi ToolModel.
Import ListNotations.

(** s is a non-empty string of decimal digits and n its value *)
Definition numeral (s : cstr) (n : N) : Prop :=
  s <> [] /\ Forall (fun c => 48 <= c <= 57)%N s /\ n = fold_left (fun a c => 10 * a + (c - 48))%N s 0%N.
(** the random source delivers bytes, never more than asked for; the bound of the loops is not zero *)
Definition env_ok (E : surroundings) (I : instance) : Prop :=
  (forall i, rng_bytes (e_rng E i) /\ forall j, length (snd (e_rng E i j)) <= if Nat.even j then key_size (i_aes I) else pt_size I) /\ 1 <= e_fuel E.
(** the length of a signature *)
Definition row_size (I : instance) : nat :=
  32 + 2 * digest_size I + num_rounds I * (Nat.log2_up (num_parties I) * seed_size I + digest_size I + key_size (i_aes I) + num_sboxes (i_aes I) + (m2 I + 1 + 1 + 2 * m1 I) * lambda I).
(** a loop of iteration i is still running: key generation, or a signing call in drawing challenges *)
Definition still_running (H : oracle) (E : surroundings) (I : instance) (i : nat) : Prop :=
  keygen (e_kf E) I (e_rng E i) = OutOfFuel \/
  exists kp, keygen (e_kf E) I (e_rng E i) = Ok kp /\ snd (sign H (e_fuel E) (e_garb E i 0) None I kp bench_msg) = OutOfFuel.
(** the ways of writing -i t for the program: the long option may be shortened *)
Definition iter_option (t : cstr) : list (list cstr) :=
  [text "-i"; t] :: [text "-i" ++ t] :: flat_map (fun o => [[text o; t]; [text o ++ text "=" ++ t]]) ["--iter"; "--ite"; "--it"; "--i"]%string.
