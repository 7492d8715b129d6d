(** The part of a signature object that verification looks at, and the lengths it depends on: the specification used by C73. *)
From Coq Require Import Arith NArith List.
From Verif Require Import Prelude Instances BanquetModel.
Import ListNotations.

(** The same proof up to entries of its three vectors behind the ones that belong there. *)
Definition same_part (I : instance) (p q : rep_proof) : Prop :=
  p_reveal p = p_reveal q /\ p_C p = p_C q /\ p_sk_delta p = p_sk_delta q /\ p_t_delta p = p_t_delta q /\ p_P_at_R p = p_P_at_R q /\
  firstn (m2 I + 1) (p_P_delta p) = firstn (m2 I + 1) (p_P_delta q) /\
  firstn (m1 I) (p_S_at_R p) = firstn (m1 I) (p_S_at_R q) /\ firstn (m1 I) (p_T_at_R p) = firstn (m1 I) (p_T_at_R q).
(** The same signature up to such entries and up to proofs behind the first num_rounds ones. *)
Definition same_read (I : instance) (s s' : signature) : Prop :=
  s_salt s = s_salt s' /\ s_h1 s = s_h1 s' /\ s_h3 s = s_h3 s' /\
  forall e, e < num_rounds I ->
    match nth_error (s_proofs s) e, nth_error (s_proofs s') e with
    | Some p, Some q => same_part I p q
    | None, None => True
    | _, _ => False
    end.
(** The lengths a proof must have so that nothing behind its vectors is read; the last entry of the correction of P is for
    party 0. *)
Definition long_enough (I : instance) (p : rep_proof) : Prop :=
  m2 I + (if snd (p_reveal p) =? 0 then 0 else 1) <= length (p_P_delta p) /\
  m1 I <= length (p_S_at_R p) /\ m1 I <= length (p_T_at_R p).
(** The commitment and the corrections are not longer than the room for them ... *)
Definition not_too_long (I : instance) (p : rep_proof) : Prop :=
  length (p_C p) <= digest_size I /\ length (p_sk_delta p) <= key_size (i_aes I) /\ length (p_t_delta p) <= num_sboxes (i_aes I).
(** ... or at least end inside the vector in which all repetitions and parties have their room one after the other, for
    repetition e and the closed party. *)
Definition inside (I : instance) (e : nat) (p : rep_proof) : Prop :=
  let n := num_parties I in let T := num_rounds I in
  e * n * digest_size I + snd (p_reveal p) * digest_size I + length (p_C p) <= T * n * digest_size I /\
  e * n * key_size (i_aes I) + length (p_sk_delta p) <= T * n * key_size (i_aes I) /\
  e * n * num_sboxes (i_aes I) + length (p_t_delta p) <= T * n * num_sboxes (i_aes I).
