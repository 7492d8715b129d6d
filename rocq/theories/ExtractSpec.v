(** What two accepted signatures that agree on h_1 and h_3, but open different parties, determine together: the
    specification used by C55 (banquet_verify, banquet.cpp:777-1194).  Nothing here computes; it only names values of the two transcripts of SigSpec. *)
From Coq Require Import Arith NArith List Bool Lia.
From Verif Require Import Prelude FieldModel FieldSpec Instances HashModel TreeSpec AesSpec AesModel AesShares BanquetModel Forge SigSpec.
Import ListNotations.

Section Spec.
Variables (I : instance) (c : fctx).
Notation n := (num_parties I).
Notation lam := (lambda I).
Notation ks := (key_size (i_aes I)).
Notation sb := (num_sboxes (i_aes I)).
Notation M1 := (m1 I).
Notation M2 := (m2 I).
Notation point k := (nth k (get_first_n_field_elements c (2 * M2 + 1)) 0%N).
Notation value f y := (horner gadd (gmul c) f y).

(** Inputs s and outputs t of the S-boxes: pair i is right if the product in the field of AES is 1. *)
Definition right_pair (s t : bytes) (i : nat) : Prop := fmul (nth i s 0%N) (nth i t 0%N) = 1%N.
(** The sum, with the coefficients rs, of the errors s_i*t_i - 1 of the pairs j + m1*k, j = 0, ..., m1-1 (the pairs are arranged as in
    banquet.cpp:1018-1022). *)
Definition error (rs : list N) (s t : bytes) (k : nat) : N :=
  xsum (map (fun j => gmul c (nth j rs 0%N) (gadd (gmul c (lift c (nth (j + M1 * k) s 0%N)) (lift c (nth (j + M1 * k) t 0%N))) 1%N)) (seq 0 M1)).
(** The coefficients hide that there are wrong pairs. *)
Definition bad_coefs (rs : list N) (s t : bytes) : Prop := (exists i, i < sb /\ ~ right_pair s t i) /\ forall k, k < M2 -> error rs s t k = 0%N.

(** The polynomials, when all parties' shares are added; tp gives the sum of the field elements at an offset of the tapes,
    ds the corrections of P (banquet.cpp:1018-1036 for S and T, 1041-1078 for P). *)
Definition S_poly (rs : list N) (s : bytes) (tp : nat -> N) (j : nat) (f : list N) : Prop := length f = M2 + 1 /\ Forall (elt lam) f /\
  (forall k, k < M2 -> value f (point k) = gmul c (nth j rs 0%N) (lift c (nth (j + M1 * k) s 0%N))) /\ value f (point M2) = tp (ks + sb + j * 2 * lam).
Definition T_poly (t : bytes) (tp : nat -> N) (j : nat) (f : list N) : Prop := length f = M2 + 1 /\ Forall (elt lam) f /\
  (forall k, k < M2 -> value f (point k) = lift c (nth (j + M1 * k) t 0%N)) /\ value f (point M2) = tp (ks + sb + j * 2 * lam + lam).
Definition P_poly (rs : list N) (tp : nat -> N) (ds : nat -> N) (f : list N) : Prop := length f = 2 * M2 + 1 /\ Forall (elt lam) f /\
  (forall k, k < M2 -> value f (point k) = xsum rs) /\
  (forall k, k < M2 + 1 -> value f (point (M2 + k)) = gadd (tp (ks + sb + M1 * 2 * lam + k * lam)) (ds k)).
(** Q = S_1*T_1 + ... + S_m1*T_m1 - P *)
Definition Q_poly (rs : list N) (s t : bytes) (tp : nat -> N) (ds : nat -> N) (Q : list N) : Prop := length Q = 2 * M2 + 1 /\ Forall (elt lam) Q /\
  exists S T P, (forall j, j < M1 -> S_poly rs s tp j (S j)) /\ (forall j, j < M1 -> T_poly t tp j (T j)) /\ P_poly rs tp ds P /\
    forall y, elt lam y -> value Q y = gadd (xsum (map (fun j => gmul c (value (S j) y) (value (T j) y)) (seq 0 M1))) (value P y).
(** The polynomial Q is not zero, but the evaluation point R is one of its roots. *)
Definition bad_point (rs : list N) (s t : bytes) (tp : nat -> N) (ds : nat -> N) (R : N) : Prop :=
  exists Q, Q_poly rs s t tp ds Q /\ (exists k, k < M2 /\ value Q (point k) <> 0%N) /\ value Q R = 0%N.

(** Both transcripts together: the values x of the first one, and x' for the party that stays closed in the first one. *)
Section Joint.
Variables (x x' : rep_values) (pf pf' : rep_proof).
Definition joint {A} (f : rep_values -> nat -> A) (p : nat) : A := if p =? x_hidden x then f x' p else f x p.
Definition joint_seed (p : nat) : bytes := joint (fun y q => x_node y (first_leaf n + q)) p.
Definition joint_key : bytes := xall ks (map (joint x_key) (seq 0 n)).
Definition joint_in : bytes := xall sb (map (joint x_in) (seq 0 n)).
Definition joint_inv : bytes := xall sb (map (joint x_inv) (seq 0 n)).
Definition joint_tape (off : nat) : N := xsum (map (fun p => tape_elem I (joint x_tape p) off) (seq 0 n)).
Definition joint_delta (k : nat) : N := nth k (p_P_delta (if x_hidden x =? 0 then pf' else pf)) 0%N.
End Joint.
End Spec.

(** The hash function was queried on two inputs with the same digest, of those that occur when sig is verified with H and
    sig' with H' *)
Definition fork_collision (H H' : oracle) (I : instance) (pk msg : bytes) (sig sig' : signature) (X X' : nat -> rep_values) : Prop :=
  collides (digest H I) (h1_input I (s_salt sig) pk msg (pf_of sig) X) (h1_input I (s_salt sig') pk msg (pf_of sig') X') \/
  collides (digest H I) (h3_input I (s_salt sig) (h2_of H I sig) (pf_of sig) X) (h3_input I (s_salt sig') (h2_of H' I sig') (pf_of sig') X') \/
  collides (digest H I) (h1_input I (s_salt sig) pk msg (pf_of sig) X) (h3_input I (s_salt sig) (h2_of H I sig) (pf_of sig) X) \/
  collides (digest H I) (h2_input I (s_salt sig) (s_h1 sig) (pf_of sig)) (h3_input I (s_salt sig) (h2_of H I sig) (pf_of sig) X).
