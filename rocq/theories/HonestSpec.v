(** The signature of a message, described by relations instead of by the code of banquet_sign: the specification used by
    C71.  The names are those of SigSpec; here every party's values are determined, also the hidden one's.  It is written
    for a number of parties that is a power of two up to 256, as in all parameter sets. *)
From Coq Require Import Arith NArith List Bool Lia.
From Verif Require Import Prelude FieldModel FieldSpec Instances HashModel TreeSpec AesModel AesShares BanquetModel SigSpec.
Import ListNotations.

Section Spec.
Variables (H : oracle) (I : instance) (c : fctx).
Notation n := (num_parties I).
Notation lam := (lambda I).
Notation ks := (key_size (i_aes I)).
Notation sb := (num_sboxes (i_aes I)).
Notation M1 := (m1 I).
Notation M2 := (m2 I).
Notation V := (digest_size I =? 32).
Notation points k := (get_first_n_field_elements c k).
Notation point k := (nth k (points (2 * M2 + 1)) 0%N).
Notation value f y := (horner gadd (gmul c) f y).

(** f is a polynomial with fewer than k coefficients *)
Definition poly (k : nat) (f : list N) : Prop := length f = k /\ Forall (elt lam) f.
(** all parties' tapes added: the bytes from off on, and the field element at off *)
Definition tape_bytes (x : rep_values) (off len : nat) : bytes := xall len (map (fun p => slice (x_tape x p) off len) (seq 0 n)).
Definition tape_sum (x : rep_values) (off : nat) : N := xsum (map (fun p => tape_elem I (x_tape x p) off) (seq 0 n)).

(** x are the values of repetition number e and pf its proof, for the secret key key and the plaintext pt, on which the
    cipher has S-box inputs s and outputs t; root is the seed of the repetition *)
Record honest_rep (salt h1 h3 root key pt s t : bytes) (e : nat) (pf : rep_proof) (x : rep_values) : Prop := mkHonest {
  hr_coef : x_coef x = map (fun j => from_bytes (stream H V h1 ((e * M1 + j) * lam) lam)) (seq 0 M1);
  hr_hidden : x_hidden x = N.to_nat (H V h3 e mod 256 mod N.of_nat n);
  (* the seed tree, the commitments and the tapes *)
  hr_root : x_node x 0 = root;
  hr_child : forall k, 0 < k < 2 * n - 1 -> x_node x k = child_seed H salt e (x_node x (parent k)) (parent k) (is_right k);
  hr_com : forall p, p < n -> x_com x p = stream H V (com_input salt e p (x_node x (first_leaf n + p))) 0 (digest_size I);
  hr_tape : forall p, p < n ->
    x_tape x p = stream H (2 * seed_size I =? 32) (x_node x (first_leaf n + p) ++ salt ++ le16 e ++ le16 p) 0 (tape_size I);
  (* the proof has the siblings of the nodes above the hidden leaf, and the commitment of the hidden party *)
  hr_reveal : p_reveal pf = (map (fun i => x_node x (sibling (Nat.iter i parent (first_leaf n + x_hidden x)))) (seq 0 (depth n)), x_hidden x);
  hr_C : p_C pf = x_com x (x_hidden x);
  (* the shares on the tapes, with party 0's corrected, add up to the key and to the S-box outputs *)
  hr_key_delta : p_sk_delta pf = xorl key (tape_bytes x 0 ks);
  hr_t_delta : p_t_delta pf = xorl t (tape_bytes x ks sb);
  hr_key : forall p, p < n -> x_key x p = (let sh := slice (x_tape x p) 0 ks in if p =? 0 then xorl (p_sk_delta pf) sh else sh);
  hr_inv : forall p, p < n -> x_inv x p = (let sh := slice (x_tape x p) ks sb in if p =? 0 then xorl (p_t_delta pf) sh else sh);
  (* all parties evaluate AES on their shares *)
  hr_aes : aes_s_shares ks (map (x_key x) (seq 0 n)) (map (x_inv x) (seq 0 n)) pt sb = Ok (map (fun p => (x_out x p, x_in x p)) (seq 0 n));
  (* the polynomials: S_j has value r_j * s_{j+m1*k} at point k < m2, T_j has t_{j+m1*k}, their last value is on the tapes,
     and P = S_0*T_0 + S_1*T_1 + ...; the proof has the differences between P and the tapes and the values at R *)
  hr_polys : exists S T P,
    (forall j, j < M1 -> poly (M2 + 1) (S j) /\ (forall k, k < M2 -> value (S j) (point k) = gmul c (nth j (x_coef x) 0%N) (lift c (nth (j + M1 * k) s 0%N))) /\
       value (S j) (point M2) = tape_sum x (ks + sb + j * 2 * lam)) /\
    (forall j, j < M1 -> poly (M2 + 1) (T j) /\ (forall k, k < M2 -> value (T j) (point k) = lift c (nth (j + M1 * k) t 0%N)) /\
       value (T j) (point M2) = tape_sum x (ks + sb + j * 2 * lam + lam)) /\
    poly (2 * M2 + 1) P /\ (forall y, elt lam y -> value P y = xsum (map (fun j => gmul c (value (S j) y) (value (T j) y)) (seq 0 M1))) /\
    p_P_delta pf = map (fun k => gadd (value P (point (M2 + k))) (tape_sum x (ks + sb + M1 * 2 * lam + k * lam))) (seq 0 (M2 + 1)) /\
    p_S_at_R pf = map (fun j => value (S j) (x_point x)) (seq 0 M1) /\
    p_T_at_R pf = map (fun j => value (T j) (x_point x)) (seq 0 M1) /\
    p_P_at_R pf = value P (x_point x);
  (* the parties' shares of these values *)
  hr_S : forall p j, p < n -> j < M1 ->
    through I c (points (M2 + 1))
      (map (fun k => gmul c (nth j (x_coef x) 0%N) (lift c (nth (j + M1 * k) (x_in x p) 0%N))) (seq 0 M2) ++ [tape_elem I (x_tape x p) (ks + sb + j * 2 * lam)])
      (x_point x) (x_S x p j);
  hr_T : forall p j, p < n -> j < M1 ->
    through I c (points (M2 + 1))
      (map (fun k => lift c (nth (j + M1 * k) (x_inv x p) 0%N)) (seq 0 M2) ++ [tape_elem I (x_tape x p) (ks + sb + j * 2 * lam + lam)])
      (x_point x) (x_T x p j);
  hr_P : forall p, p < n ->
    through I c (points (2 * M2 + 1))
      (repeat (if p =? 0 then xsum (x_coef x) else 0%N) M2 ++
       map (fun k => let v := tape_elem I (x_tape x p) (ks + sb + M1 * 2 * lam + k * lam) in if p =? 0 then gadd v (nth k (p_P_delta pf) 0%N) else v) (seq 0 (M2 + 1)))
      (x_point x) (x_P x p) }.

(** what the salt and the seeds of the repetitions are derived from *)
Definition root_input (key pk msg : bytes) : bytes := le16 (i_params I) ++ key ++ pk ++ msg.

(** sig is the signature of msg for the secret key key and the public key (pt, ct), and X e are the values of repetition e *)
Record prescribed (key pt ct s t msg : bytes) (sig : signature) (X : nat -> rep_values) : Prop := mkPrescribed {
  pr_salt : s_salt sig = stream H V (root_input key (pt ++ ct) msg) 0 32;
  pr_h1 : s_h1 sig = digest H I (h1_input I (s_salt sig) (pt ++ ct) msg (pf_of sig) X);
  pr_h3 : s_h3 sig = digest H I (h3_input I (s_salt sig) (h2_of H I sig) (pf_of sig) X);
  pr_len : length (s_proofs sig) = num_rounds I;
  pr_points : exists M, map (fun e => x_point (X e)) (seq 0 (num_rounds I)) =
    filter (fun R => negb (forbidden I c R)) (map (candidate H I sig) (seq 0 M));
  pr_reps : forall e, e < num_rounds I ->
    honest_rep (s_salt sig) (s_h1 sig) (s_h3 sig) (stream H V (root_input key (pt ++ ct) msg) (32 + e * seed_size I) (seed_size I))
      key pt s t e (pf_of sig e) (X e) }.
End Spec.
