(** What the parties would have done with the seeds committed to: the specification used by C79 (banquet_verify,
    banquet.cpp:777-1194, recomputes the same for all parties but the closed one).  The names are those of SigSpec. *)
From Coq Require Import Arith NArith List Bool.
From Verif Require Import Prelude FieldModel FieldSpec Instances HashModel AesModel AesShares BanquetModel SigSpec.
Import ListNotations.

Section Spec.
Variables (H : oracle) (I : instance) (c : fctx).
Notation n := (num_parties I).
Notation lam := (lambda I).
Notation ks := (key_size (i_aes I)).
Notation sb := (num_sboxes (i_aes I)).
Notation M1 := (m1 I).
Notation M2 := (m2 I).
Notation points k := (get_first_n_field_elements c k).

(** y has the values of repetition e of all n parties, when party p starts from seed p, with the corrections of pf, the
    coefficients rs and the evaluation point R; no party is closed *)
Record evaluation (salt pt : bytes) (e : nat) (pf : rep_proof) (rs : list N) (R : N) (seed : nat -> bytes) (y : rep_values) : Prop := mkEval {
  ev_tape : forall p, p < n -> x_tape y p = stream H (2 * seed_size I =? 32) (seed p ++ salt ++ le16 e ++ le16 p) 0 (tape_size I);
  ev_key : forall p, p < n -> x_key y p = (let sh := slice (x_tape y p) 0 ks in if p =? 0 then xorl (p_sk_delta pf) sh else sh);
  ev_inv : forall p, p < n -> x_inv y p = (let sh := slice (x_tape y p) ks sb in if p =? 0 then xorl (p_t_delta pf) sh else sh);
  ev_aes : aes_s_shares ks (map (x_key y) (seq 0 n)) (map (x_inv y) (seq 0 n)) pt sb = Ok (map (fun p => (x_out y p, x_in y p)) (seq 0 n));
  ev_S : forall p j, p < n -> j < M1 ->
    through I c (points (M2 + 1))
      (map (fun k => gmul c (nth j rs 0%N) (lift c (nth (j + M1 * k) (x_in y p) 0%N))) (seq 0 M2) ++ [tape_elem I (x_tape y p) (ks + sb + j * 2 * lam)])
      R (x_S y p j);
  ev_T : forall p j, p < n -> j < M1 ->
    through I c (points (M2 + 1))
      (map (fun k => lift c (nth (j + M1 * k) (x_inv y p) 0%N)) (seq 0 M2) ++ [tape_elem I (x_tape y p) (ks + sb + j * 2 * lam + lam)])
      R (x_T y p j);
  ev_P : forall p, p < n ->
    through I c (points (2 * M2 + 1))
      (repeat (if p =? 0 then xsum rs else 0%N) M2 ++
       map (fun k => let v := tape_elem I (x_tape y p) (ks + sb + M1 * 2 * lam + k * lam) in if p =? 0 then gadd v (nth k (p_P_delta pf) 0%N) else v) (seq 0 (M2 + 1)))
      R (x_P y p) }.

(** What party p has broadcast, as hashed into h_1 and h_3, is not what follows from its seed. *)
Definition deviates (x y : rep_values) (p : nat) : Prop :=
  x_out x p <> x_out y p \/ x_P x p <> x_P y p \/ exists j, j < M1 /\ (x_S x p j <> x_S y p j \/ x_T x p j <> x_T y p j).

(** all parties' shares added: the key, the S-box inputs and outputs, and the field elements on the tapes *)
Definition all_key (y : rep_values) : bytes := xall ks (map (x_key y) (seq 0 n)).
Definition all_in (y : rep_values) : bytes := xall sb (map (x_in y) (seq 0 n)).
Definition all_inv (y : rep_values) : bytes := xall sb (map (x_inv y) (seq 0 n)).
Definition all_tape (y : rep_values) (off : nat) : N := xsum (map (fun p => tape_elem I (x_tape y p) off) (seq 0 n)).
End Spec.
