(** The uses of the hash function and what is hashed in each. *)
From Coq Require Import Arith NArith List Bool.
From Verif Require Import Prelude Instances HashModel BanquetModel.
Import ListNotations.

Inductive use : Type :=
  | Commit (salt : bytes) (rep party : nat) (seed : bytes)      (* commit_to_party_seed *)
  | Tape (salt : bytes) (rep party : nat) (seed : bytes)        (* RandomTapes::generate_tape *)
  | Node (salt : bytes) (rep node : nat) (seed : bytes)         (* expand_seed: the children of a tree node *)
  | Phase1 (salt pk msg body : bytes)                           (* phase_1_commitment; body: commitments, broadcasts, corrections *)
  | Phase2 (salt h1 body : bytes)                               (* phase_2_commitment; body: the corrections of P *)
  | Phase3 (salt h2 body : bytes)                               (* phase_3_commitment; body: opened values and shares *)
  | Challenge (digest : bytes)                                  (* phase_1_expand, phase_2_expand, phase_3_expand *)
  | Start (params : nat) (key pk msg : bytes).                  (* generate_salt_and_seeds *)

Definition hashed (u : use) : bytes :=
  match u with
  | Commit salt rep party seed => salt ++ le16 rep ++ le16 party ++ seed
  | Tape salt rep party seed => seed ++ salt ++ le16 rep ++ le16 party
  | Node salt rep node seed => [1%N] ++ seed ++ salt ++ le16 rep ++ le16 node
  | Phase1 salt pk msg body => [1%N] ++ salt ++ pk ++ msg ++ body
  | Phase2 salt h1 body => [2%N] ++ salt ++ h1 ++ body
  | Phase3 salt h2 body => [3%N] ++ salt ++ h2 ++ body
  | Challenge digest => digest
  | Start params key pk msg => le16 params ++ key ++ pk ++ msg
  end.
Definition kind (u : use) : nat :=
  match u with Commit _ _ _ _ => 0 | Tape _ _ _ _ => 1 | Node _ _ _ _ => 2 | Phase1 _ _ _ _ => 3 | Phase2 _ _ _ => 4 | Phase3 _ _ _ => 5 | Challenge _ => 6 | Start _ _ _ _ => 7 end.

(** the parts have the sizes they have in a run with parameter set I (the message is arbitrary) *)
Definition small (x : nat) : Prop := (N.of_nat x < 65536)%N.
Definition sized (I : instance) (u : use) : Prop :=
  let n := num_parties I in let T := num_rounds I in let lam := lambda I in let ds := digest_size I in
  match u with
  | Commit salt a b seed | Tape salt a b seed | Node salt a b seed => length salt = 32 /\ small a /\ small b /\ length seed = seed_size I
  | Phase1 salt pk _ body => length salt = 32 /\ length pk = 2 * pt_size I /\ length body = T * (n * (ds + pt_size I) + key_size (i_aes I) + num_sboxes (i_aes I))
  | Phase2 salt h body => length salt = 32 /\ length h = ds /\ length body = T * (m2 I * lam)
  | Phase3 salt h body => length salt = 32 /\ length h = ds /\ length body = T * (lam + n * lam + m1 I * (lam + lam + n * (lam + lam)))
  | Challenge h => length h = ds
  | Start params key pk _ => params = i_params I /\ length key = key_size (i_aes I) /\ length pk = 2 * pt_size I
  end.

(** a list of k strings of len bytes; a table of rows *)
Definition column (k len : nat) (l : list bytes) : Prop := length l = k /\ Forall (fun b => length b = len) l.
Definition table (r k len : nat) (t : list (list bytes)) : Prop := length t = r /\ Forall (column k len) t.

(** the pairs of kinds that are not separated by what is hashed *)
Definition overlap (I : instance) (k k' : nat) : Prop :=
  (k = 0 /\ k' = 1) \/                                           (* a seed commitment and a tape *)
  (k' = 7 /\ ((k < 2 /\ seed_size I = 16) \/                     (* signing starts with an unprefixed hash *)
              (k = 2 /\ seed_size I = 16 /\ i_params I = 1) \/
              (3 <= k <= 5 /\ i_params I + 2 = k))).
