(** What a signature determines, described by relations instead of by the code of banquet_verify: the specification used by
    the theorems about acceptance (C39-C42, C45).  It is written for a number of parties that is a power of two up to
    256, as in all parameter sets. *)
From Coq Require Import Arith NArith List Bool Lia.
From Verif Require Import Prelude FieldModel FieldSpec Instances HashModel TreeSpec AesModel AesShares BanquetModel.
Import ListNotations.

(** The values of one repetition.  Parties and nodes are numbered from 0. *)
Record rep_values : Type := mkRV {
  x_coef : list N;                 (* the coefficients r_j *)
  x_point : N;                     (* the evaluation point R *)
  x_hidden : nat;                  (* the party that stays closed *)
  x_node : nat -> bytes;           (* the seeds of the tree nodes (not of those above the hidden leaf) *)
  x_com : nat -> bytes;            (* the commitments to the parties' seeds *)
  x_tape : nat -> bytes;           (* the parties' random tapes *)
  x_key : nat -> bytes;            (* shares of the key *)
  x_inv : nat -> bytes;            (* shares of the S-box outputs *)
  x_in : nat -> bytes;             (* shares of the S-box inputs *)
  x_out : nat -> bytes;            (* shares of the ciphertext: the output broadcasts *)
  x_S : nat -> nat -> N;           (* x_S p j: party p's share of S_j(R) *)
  x_T : nat -> nat -> N;
  x_P : nat -> N }.                (* party p's share of P(R) *)

Section Spec.
Variables (H : oracle) (I : instance) (c : fctx).
Notation n := (num_parties I).
Notation lam := (lambda I).
Notation ks := (key_size (i_aes I)).
Notation sb := (num_sboxes (i_aes I)).
Notation M1 := (m1 I).
Notation M2 := (m2 I).
Notation V := (digest_size I =? 32).
Notation points k := (get_first_n_field_elements c k).

(** the polynomial of degree < |xs| with value y_i at x_i has value a at R *)
Definition through (xs ys : list N) (R a : N) : Prop :=
  exists f, length f = length xs /\ Forall (elt lam) f /\ map (horner gadd (gmul c) f) xs = ys /\ horner gadd (gmul c) f R = a.
(** the field element stored at an offset of a tape *)
Definition tape_elem (tape : bytes) (off : nat) : N := from_bytes (slice tape off lam).
Definition sibling (k : nat) : nat := if Nat.even k then k - 1 else k + 1.

(** what is hashed for the seed of party p *)
Definition com_input (salt : bytes) (e p : nat) (seed : bytes) : bytes := salt ++ le16 e ++ le16 p ++ seed.

(** x are the values of repetition number e, given the header of the signature, the two halves of the public key and the
    repetition's proof; here all but the choice of the hidden party and the seed tree *)
Record rep_core (salt h1 pt ct : bytes) (e : nat) (pf : rep_proof) (x : rep_values) : Prop := mkRepCore {
  rc_coef : x_coef x = map (fun j => from_bytes (stream H V h1 ((e * M1 + j) * lam) lam)) (seq 0 M1);
  rc_com : forall p, p < n -> x_com x p =
    if p =? x_hidden x then p_C pf else stream H V (com_input salt e p (x_node x (first_leaf n + p))) 0 (digest_size I);
  rc_tape : forall p, p < n -> p <> x_hidden x ->
    x_tape x p = stream H (2 * seed_size I =? 32) (x_node x (first_leaf n + p) ++ salt ++ le16 e ++ le16 p) 0 (tape_size I);
  (* the shares of the key and of the S-box outputs are on the tapes; party 0's are corrected *)
  rc_sizes : forall p, p < n -> str ks (x_key x p) /\ str sb (x_inv x p) /\ str (pt_size I) (x_out x p) /\ str sb (x_in x p);
  rc_key : forall p, p < n -> p <> x_hidden x ->
    x_key x p = (let sh := slice (x_tape x p) 0 ks in if p =? 0 then xorl (p_sk_delta pf) sh else sh);
  rc_inv : forall p, p < n -> p <> x_hidden x ->
    x_inv x p = (let sh := slice (x_tape x p) ks sb in if p =? 0 then xorl (p_t_delta pf) sh else sh);
  (* the opened parties evaluate AES on their shares; the hidden party's broadcast is what is missing to the ciphertext *)
  rc_aes : exists outs, aes_s_shares ks (map (x_key x) (seq 0 n)) (map (x_inv x) (seq 0 n)) pt sb = Ok outs /\
    forall p, p < n -> p <> x_hidden x -> nth_error outs p = Some (x_out x p, x_in x p);
  rc_cipher : xall (pt_size I) (map (x_out x) (seq 0 n)) = ct;
  (* the shares of the polynomials: S_j has value r_j * s_{j+m1*k} at point k < m2, T_j has t_{j+m1*k}; the last value is
     on the tape; P has the sum of the r_j at the first m2 points in party 0's share, the others are on the tape *)
  rc_S : forall p j, p < n -> p <> x_hidden x -> j < M1 ->
    through (points (M2 + 1))
      (map (fun k => gmul c (nth j (x_coef x) 0%N) (lift c (nth (j + M1 * k) (x_in x p) 0%N))) (seq 0 M2) ++ [tape_elem (x_tape x p) (ks + sb + j * 2 * lam)])
      (x_point x) (x_S x p j);
  rc_T : forall p j, p < n -> p <> x_hidden x -> j < M1 ->
    through (points (M2 + 1))
      (map (fun k => lift c (nth (j + M1 * k) (x_inv x p) 0%N)) (seq 0 M2) ++ [tape_elem (x_tape x p) (ks + sb + j * 2 * lam + lam)])
      (x_point x) (x_T x p j);
  rc_P : forall p, p < n -> p <> x_hidden x ->
    through (points (2 * M2 + 1))
      (repeat (if p =? 0 then xsum (x_coef x) else 0%N) M2 ++
       map (fun k => let v := tape_elem (x_tape x p) (ks + sb + M1 * 2 * lam + k * lam) in if p =? 0 then gadd v (nth k (p_P_delta pf) 0%N) else v) (seq 0 (M2 + 1)))
      (x_point x) (x_P x p);
  (* the hidden party's shares are what is missing to the opened values *)
  rc_sum_S : forall j, j < M1 -> xsum (map (fun p => x_S x p j) (seq 0 n)) = nth j (p_S_at_R pf) 0%N;
  rc_sum_T : forall j, j < M1 -> xsum (map (fun p => x_T x p j) (seq 0 n)) = nth j (p_T_at_R pf) 0%N;
  rc_sum_P : xsum (map (x_P x) (seq 0 n)) = p_P_at_R pf }.
(** ... with the seed tree: the siblings of the nodes on the way from the hidden leaf to the root are in the proof, every other node
    off that way is a child of its parent (node 0 is the root; leaf p is node number first_leaf n + p) *)
Record rep_open (salt h1 pt ct : bytes) (e : nat) (pf : rep_proof) (x : rep_values) : Prop := mkRepOpen {
  rp_reveal : forall i, i < depth n -> x_node x (sibling (Nat.iter i parent (first_leaf n + x_hidden x))) = nth i (fst (p_reveal pf)) [];
  rp_child : forall k, 0 < k < first_leaf n + n -> ~ ancestor (parent k) (first_leaf n + x_hidden x) ->
    x_node x k = child_seed H salt e (x_node x (parent k)) (parent k) (is_right k);
  rp_core : rep_core salt h1 pt ct e pf x }.
(** ... and with the hidden party, if the number of parties is a power of two up to 256 *)
Record rep_ok (salt h1 h3 pt ct : bytes) (e : nat) (pf : rep_proof) (x : rep_values) : Prop := mkRepOk {
  ro_hidden : x_hidden x = N.to_nat (H V h3 e mod 256 mod N.of_nat n);
  ro_open : rep_open salt h1 pt ct e pf x }.
Section Core.
Variables (salt h1 h3 pt ct : bytes) (e : nat) (pf : rep_proof) (x : rep_values).
Hypothesis RO : rep_ok salt h1 h3 pt ct e pf x.
Definition ro_reveal := rp_reveal _ _ _ _ _ _ _ (ro_open _ _ _ _ _ _ _ _ RO).
Definition ro_child := rp_child _ _ _ _ _ _ _ (ro_open _ _ _ _ _ _ _ _ RO).
Definition ro_coef := rc_coef _ _ _ _ _ _ _ (rp_core _ _ _ _ _ _ _ (ro_open _ _ _ _ _ _ _ _ RO)).
Definition ro_com := rc_com _ _ _ _ _ _ _ (rp_core _ _ _ _ _ _ _ (ro_open _ _ _ _ _ _ _ _ RO)).
Definition ro_tape := rc_tape _ _ _ _ _ _ _ (rp_core _ _ _ _ _ _ _ (ro_open _ _ _ _ _ _ _ _ RO)).
Definition ro_sizes := rc_sizes _ _ _ _ _ _ _ (rp_core _ _ _ _ _ _ _ (ro_open _ _ _ _ _ _ _ _ RO)).
Definition ro_key := rc_key _ _ _ _ _ _ _ (rp_core _ _ _ _ _ _ _ (ro_open _ _ _ _ _ _ _ _ RO)).
Definition ro_inv := rc_inv _ _ _ _ _ _ _ (rp_core _ _ _ _ _ _ _ (ro_open _ _ _ _ _ _ _ _ RO)).
Definition ro_aes := rc_aes _ _ _ _ _ _ _ (rp_core _ _ _ _ _ _ _ (ro_open _ _ _ _ _ _ _ _ RO)).
Definition ro_cipher := rc_cipher _ _ _ _ _ _ _ (rp_core _ _ _ _ _ _ _ (ro_open _ _ _ _ _ _ _ _ RO)).
Definition ro_S := rc_S _ _ _ _ _ _ _ (rp_core _ _ _ _ _ _ _ (ro_open _ _ _ _ _ _ _ _ RO)).
Definition ro_T := rc_T _ _ _ _ _ _ _ (rp_core _ _ _ _ _ _ _ (ro_open _ _ _ _ _ _ _ _ RO)).
Definition ro_P := rc_P _ _ _ _ _ _ _ (rp_core _ _ _ _ _ _ _ (ro_open _ _ _ _ _ _ _ _ RO)).
Definition ro_sum_S := rc_sum_S _ _ _ _ _ _ _ (rp_core _ _ _ _ _ _ _ (ro_open _ _ _ _ _ _ _ _ RO)).
Definition ro_sum_T := rc_sum_T _ _ _ _ _ _ _ (rp_core _ _ _ _ _ _ _ (ro_open _ _ _ _ _ _ _ _ RO)).
Definition ro_sum_P := rc_sum_P _ _ _ _ _ _ _ (rp_core _ _ _ _ _ _ _ (ro_open _ _ _ _ _ _ _ _ RO)).
End Core.

(** the inputs of the three digests *)
Definition h1_input (salt pk msg : bytes) (pf : nat -> rep_proof) (X : nat -> rep_values) : bytes :=
  [1%N] ++ salt ++ pk ++ msg ++
  concat (map (fun e => concat (map (fun p => x_com (X e) p ++ x_out (X e) p) (seq 0 n)) ++ p_sk_delta (pf e) ++ p_t_delta (pf e)) (seq 0 (num_rounds I))).
Definition h2_input (salt h1 : bytes) (pf : nat -> rep_proof) : bytes :=
  [2%N] ++ salt ++ h1 ++ concat (map (fun e => concat (map (fun k => to_bytes lam (nth k (p_P_delta (pf e)) 0%N)) (seq 0 M2))) (seq 0 (num_rounds I))).
Definition h3_input (salt h2 : bytes) (pf : nat -> rep_proof) (X : nat -> rep_values) : bytes :=
  [3%N] ++ salt ++ h2 ++
  concat (map (fun e => let f := pf e in let x := X e in
    to_bytes lam (p_P_at_R f) ++ concat (map (fun p => to_bytes lam (x_P x p)) (seq 0 n)) ++
    concat (map (fun j => to_bytes lam (nth j (p_S_at_R f) 0%N) ++ to_bytes lam (nth j (p_T_at_R f) 0%N) ++
      concat (map (fun p => to_bytes lam (x_S x p j) ++ to_bytes lam (x_T x p j)) (seq 0 n))) (seq 0 M1))) (seq 0 (num_rounds I))).
Definition digest (input : bytes) : bytes := stream H V input 0 (digest_size I).

Definition pf_of (sig : signature) (e : nat) : rep_proof := nth e (s_proofs sig) (mkProof ([], 0) [] [] [] [] 0%N [] []).
Definition h2_of (sig : signature) : bytes := digest (h2_input (s_salt sig) (s_h1 sig) (pf_of sig)).
(** candidate number k for the evaluation points; those among the first m2 points are skipped *)
Definition candidate (sig : signature) (k : nat) : N := from_bytes (stream H V (h2_of sig) (k * lam) lam).
Definition forbidden (R : N) : bool := existsb (N.eqb R) (points M2).

(** X e are the values of repetition e *)
Record is_transcript (pk : bytes) (sig : signature) (X : nat -> rep_values) : Prop := mkTr {
  tr_points : exists M, map (fun e => x_point (X e)) (seq 0 (num_rounds I)) = filter (fun R => negb (forbidden R)) (map (candidate sig) (seq 0 M));
  tr_reps : forall e, e < num_rounds I ->
    rep_ok (s_salt sig) (s_h1 sig) (s_h3 sig) (slice pk 0 (pt_size I)) (slice pk (pt_size I) (pt_size I)) e (pf_of sig e) (X e) }.
(** the three checks *)
Record accepts (pk msg : bytes) (sig : signature) (X : nat -> rep_values) : Prop := mkAcc {
  ac_h1 : digest (h1_input (s_salt sig) pk msg (pf_of sig) X) = s_h1 sig;
  ac_h3 : digest (h3_input (s_salt sig) (h2_of sig) (pf_of sig) X) = s_h3 sig;
  ac_rel : forall e, e < num_rounds I ->
    xsum (map (fun j => gmul c (nth j (p_S_at_R (pf_of sig e)) 0%N) (nth j (p_T_at_R (pf_of sig e)) 0%N)) (seq 0 M1)) = p_P_at_R (pf_of sig e) }.

(** the party that h_3 leaves closed in repetition e *)
Definition hidden_of (sig : signature) (e : nat) : nat := N.to_nat (H V (s_h3 sig) e mod 256 mod N.of_nat n).

(** two inputs on which f, a part of the output of the hash function, takes the same value *)
Definition collides (f : bytes -> bytes) (a b : bytes) : Prop := a <> b /\ f a = f b.
(** what is hashed to get the seeds of the two children of node k *)
Definition tree_input (salt : bytes) (e k : nat) (seed : bytes) : bytes := [1%N] ++ seed ++ salt ++ le16 e ++ le16 k.
Definition expansion (input : bytes) : bytes := stream H (2 * seed_size I =? 32) input 0 (2 * seed_size I).
(** a collision between inputs that occur in the verification of sig and sig' for the same key and message *)
Definition collision_between (pk msg : bytes) (sig sig' : signature) (X X' : nat -> rep_values) : Prop :=
  collides digest (h1_input (s_salt sig) pk msg (pf_of sig) X) (h1_input (s_salt sig') pk msg (pf_of sig') X') \/
  collides digest (h2_input (s_salt sig) (s_h1 sig) (pf_of sig)) (h2_input (s_salt sig') (s_h1 sig') (pf_of sig')) \/
  collides digest (h3_input (s_salt sig) (h2_of sig) (pf_of sig) X) (h3_input (s_salt sig') (h2_of sig') (pf_of sig') X') \/
  (exists e p, e < num_rounds I /\ p < n /\ p <> hidden_of sig e /\
     collides digest (com_input (s_salt sig) e p (x_node (X e) (first_leaf n + p))) (com_input (s_salt sig') e p (x_node (X' e) (first_leaf n + p)))) \/
  (exists e k, e < num_rounds I /\ k < n - 1 /\ ~ ancestor k (first_leaf n + hidden_of sig e) /\
     collides expansion (tree_input (s_salt sig) e k (x_node (X e) k)) (tree_input (s_salt sig') e k (x_node (X' e) k))).

(** the proof of a repetition with another value of the last correction of P *)
Definition with_last (pf : rep_proof) (v : N) : rep_proof :=
  mkProof (p_reveal pf) (p_C pf) (p_sk_delta pf) (p_t_delta pf) (firstn M2 (p_P_delta pf) ++ [v]) (p_P_at_R pf) (p_S_at_R pf) (p_T_at_R pf).
(** sig' is sig, except that the last correction of P may differ in repetitions whose hidden party is the first one or
    whose evaluation point is one of the first 2*m2 points *)
Record same_but_last (sig sig' : signature) (X : nat -> rep_values) : Prop := mkSbl {
  sb_salt : s_salt sig' = s_salt sig; sb_h1 : s_h1 sig' = s_h1 sig; sb_h3 : s_h3 sig' = s_h3 sig;
  sb_len : length (s_proofs sig') = length (s_proofs sig);
  sb_proofs : forall e, e < num_rounds I -> pf_of sig' e = pf_of sig e \/
    exists v, elt lam v /\ pf_of sig' e = with_last (pf_of sig e) v /\ (x_hidden (X e) = 0 \/ In (x_point (X e)) (points (2 * M2))) }.
End Spec.
