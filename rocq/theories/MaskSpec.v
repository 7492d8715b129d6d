(** One repetition of signing as a function of the parties' tapes and of the challenges, and what it discloses. *)
From Coq Require Import Arith NArith List Bool.
From Verif Require Import Prelude FieldModel PolyModel Instances HashModel AesModel AesShares BanquetModel.
Import ListNotations.

(** Everything computed from the secret in a repetition that is hashed or put into the signature: the corrections of the
    key, of the S-box outputs and of P, the parties' output broadcasts, the opened values (S_j(R), T_j(R), P(R)) and the
    parties' shares of them. *)
Record disclosed : Type := mkDisclosed {
  d_key_delta : bytes; d_t_delta : bytes; d_bcast : list bytes; d_P_delta : list N; d_opened : view; d_views : list view }.

(** banquet.cpp:296-775 restricted to one repetition: the cipher run (banquet.cpp:306-318), phase 1 (386-461), the
    polynomials (481-538), phase 3 (540-656) and phase 5 (688-724), with the tapes and the challenges [rs], [R] given
    instead of derived from hashes. *)
Definition repetition (I : instance) (c : fctx) (key pt : bytes) (tapes : list bytes) (rs : list N) (R : N) : res disclosed :=
  do sb <- aes_with_sbox_output (key_size (i_aes I)) key pt;
  do p1 <- sign_phase1 I key (snd (fst sb)) pt tapes;
  do pre1 <- precompute_lagrange_polynomials (gops c) (get_first_n_field_elements c (m2 I + 1));
  let xs2 := get_first_n_field_elements c (2 * m2 I + 1) in
  do pre2 <- precompute_lagrange_polynomials (gops c) xs2;
  do last <- get pre1 (m2 I);
  do sq <- vmul (gops c) last last;
  do prods <- mapM (sbox_products I c pre1 last (fst (fst sb)) (snd (fst sb))) (seq 0 (m1 I));
  do p3 <- sign_phase3 I c xs2 prods sq rs p1 tapes;
  do p5 <- sign_phase5 I c pre1 pre2 R p3;
  Ok (mkDisclosed (r1_key_delta p1) (r1_t_delta p1) (r1_bcast p1) (r3_delta p3) (fst p5) (snd p5)).

(** the tapes with the one of party m replaced *)
Definition with_tape (tapes : list bytes) (m : nat) (tape : bytes) : list bytes := firstn m tapes ++ tape :: skipn (S m) tapes.

(** [key] is a secret key for the public key (pt, ct): the cipher maps pt to ct under it and meets no zero S-box input *)
Definition witness (I : instance) (pt ct key : bytes) : Prop :=
  str (key_size (i_aes I)) key /\ exists s t, aes_with_sbox_output (key_size (i_aes I)) key pt = Ok ((s, t), Some ct).

(** the disclosed corrections and the opened values of the S_j and T_j *)
Definition shows (d : disclosed) (kd td : bytes) (pd a b : list N) : Prop :=
  d_key_delta d = kd /\ d_t_delta d = td /\ d_P_delta d = pd /\ v_a (d_opened d) = a /\ v_b (d_opened d) = b.
