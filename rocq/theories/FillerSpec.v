(** Specification for C58_unused_entries: entries of a reveal list that stand for no node of the seed tree. *)
From Coq Require Import Arith NArith List.
From Verif Require Import Prelude BanquetModel SigSpec.
Import ListNotations.

(** With n parties, party m hidden: the node i levels above leaf m is a left child, and no leaf lies below its sibling. *)
Definition unused (n m i : nat) : Prop := Nat.even (m / 2 ^ i) = true /\ n <= (m / 2 ^ i + 1) * 2 ^ i.
(** the list with entry i replaced, and the signature with entry i of the reveal list of repetition e replaced *)
Definition replaced {A} (l : list A) (i : nat) (v : A) : list A := firstn i l ++ v :: skipn (S i) l.
Definition with_entry (sig : signature) (e i : nat) (v : bytes) : signature :=
  let pf := pf_of sig e in
  mkSig (s_salt sig) (s_h1 sig) (s_h3 sig)
    (replaced (s_proofs sig) e
      (mkProof (replaced (fst (p_reveal pf)) i v, snd (p_reveal pf)) (p_C pf) (p_sk_delta pf) (p_t_delta pf) (p_P_delta pf) (p_P_at_R pf) (p_S_at_R pf) (p_T_at_R pf))).
