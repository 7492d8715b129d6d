(** The layout of a serialized signature, written down as a table of offsets: the specification used by C70. *)
From Coq Require Import Arith NArith List.
From Verif Require Import Prelude Instances BanquetModel.
Import ListNotations.

(** the w bytes of ser at offset o are x in little-endian order *)
Definition number_at (ser : bytes) (o w : nat) (x : N) : Prop :=
  (x < 2 ^ N.of_nat (8 * w))%N /\ forall i, i < w -> nth_error ser (o + i) = Some (N.modulo (N.div x (2 ^ N.of_nat (8 * i))) 256).
(** they are the string x *)
Definition string_at (ser : bytes) (o w : nat) (x : bytes) : Prop :=
  length x = w /\ forall i, i < w -> nth_error ser (o + i) = nth_error x i.

Section Wire.
Variable I : instance.
Notation d := (digest_size I).
Notation lam := (lambda I).
Notation ks := (key_size (i_aes I)).
Notation sb := (num_sboxes (i_aes I)).
Notation levels := (Nat.log2_up (num_parties I)).
Definition rep_length : nat := levels * seed_size I + d + ks + sb + (m2 I + 1 + 1 + 2 * m1 I) * lam.
(** where repetition e starts *)
Definition rep_start (e : nat) : nat := 32 + 2 * d + e * rep_length.

(** repetition: the revealed seeds, the commitment of the closed party, the correction of the key, that of the S-box
    outputs, those of P, P(R), the S_j(R), the T_j(R) *)
Record rep_at (ser : bytes) (o : nat) (p : rep_proof) : Prop := mkRepAt {
  ra_seeds : length (fst (p_reveal p)) = levels;
  ra_seed : forall i x, nth_error (fst (p_reveal p)) i = Some x -> string_at ser (o + i * seed_size I) (seed_size I) x;
  ra_C : string_at ser (o + levels * seed_size I) d (p_C p);
  ra_key : string_at ser (o + levels * seed_size I + d) ks (p_sk_delta p);
  ra_t : string_at ser (o + levels * seed_size I + d + ks) sb (p_t_delta p);
  ra_deltas : length (p_P_delta p) = m2 I + 1;
  ra_delta : forall k x, nth_error (p_P_delta p) k = Some x -> number_at ser (o + levels * seed_size I + d + ks + sb + k * lam) lam x;
  ra_P : number_at ser (o + levels * seed_size I + d + ks + sb + (m2 I + 1) * lam) lam (p_P_at_R p);
  ra_Ss : length (p_S_at_R p) = m1 I;
  ra_S : forall j x, nth_error (p_S_at_R p) j = Some x -> number_at ser (o + levels * seed_size I + d + ks + sb + (m2 I + 2 + j) * lam) lam x;
  ra_Ts : length (p_T_at_R p) = m1 I;
  ra_T : forall j x, nth_error (p_T_at_R p) j = Some x -> number_at ser (o + levels * seed_size I + d + ks + sb + (m2 I + 2 + m1 I + j) * lam) lam x }.

(** signature: the salt, h_1, h_3, the repetitions in order; nothing follows *)
Record wire (sig : signature) (ser : bytes) : Prop := mkWire {
  wi_length : length ser = rep_start (num_rounds I);
  wi_salt : string_at ser 0 32 (s_salt sig);
  wi_h1 : string_at ser 32 d (s_h1 sig);
  wi_h3 : string_at ser (32 + d) d (s_h3 sig);
  wi_reps : length (s_proofs sig) = num_rounds I;
  wi_rep : forall e p, nth_error (s_proofs sig) e = Some p -> rep_at ser (rep_start e) p }.
End Wire.
