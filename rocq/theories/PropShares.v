(** Property theorems about the signer's sharings (C46).
    [xall k l]: the exclusive or of the k-byte strings in l; [xsum l]: of the numbers in l; [str k b]: b is k bytes;
    [slice b o k]: the k bytes of b at offset o; [horner add mul f x]: the value at x of the polynomial with coefficients f;
    [elt (lambda I) x]: x is a value of the field.  [aes_with_sbox_output] is aes_128/192/256_with_sbox_output. *)
From Coq Require Import Arith NArith ZArith List Bool Lia FinFun.
From Verif Require Import Prelude FieldModel FieldSpec PolyModel Instances HashModel TreeModel TreeSpec AesBase AesShares BanquetModel BanquetPure BanquetSign BanquetApi ShareFacts FreeSpec.
Import ListNotations.

(** C46, phase 1: whatever the tapes, for every key the cipher accepts, the parties' key shares xor to the key, their
    shares of the S-box outputs to the recorded outputs t, of the S-box inputs to the recorded inputs s, the broadcasts
    to the ciphertext; only the first share is changed, by the value that goes into the signature. *)
Theorem C46_phase_1 : forall I key pt ct s t tapes, regular I ->
  let ks := key_size (i_aes I) in let sb := num_sboxes (i_aes I) in
  str ks key -> str (pt_size I) pt -> aes_with_sbox_output ks key pt = Ok ((s, t), Some ct) ->
  length tapes = num_parties I -> Forall (str (tape_size I)) tapes ->
  exists r, sign_phase1 I key t pt tapes = Ok r /\
  length (r1_keys r) = num_parties I /\ length (r1_t r) = num_parties I /\ length (r1_s r) = num_parties I /\ length (r1_bcast r) = num_parties I /\
  xall ks (r1_keys r) = key /\ xall sb (r1_t r) = t /\ xall sb (r1_s r) = s /\ xall (pt_size I) (r1_bcast r) = ct /\
  nth 0 (r1_keys r) [] = xorl (r1_key_delta r) (slice (nth 0 tapes []) 0 ks) /\
  nth 0 (r1_t r) [] = xorl (r1_t_delta r) (slice (nth 0 tapes []) ks sb) /\
  (forall p, 1 <= p < num_parties I -> nth p (r1_keys r) [] = slice (nth p tapes []) 0 ks /\ nth p (r1_t r) [] = slice (nth p tapes []) ks sb).
Proof. exact api_phase1. Qed.
Print Assumptions C46_phase_1.

(** C46, phase 3: with the polynomials the code computes from s and t, for any coefficients rs the parties' shares of P
    sum to P's value at each of the 2*m2+1 points, which on the first m2 points is the sum of the coefficients, and the
    shares of the points of S_j, T_j sum to r_j*s and t. *)
Theorem C46_phase_3 : forall I c key pt ct s t tapes pre last sq prods r rs, regular I -> init_extension_field (lambda I) = Ok c ->
  str (key_size (i_aes I)) key -> str (pt_size I) pt -> aes_with_sbox_output (key_size (i_aes I)) key pt = Ok ((s, t), Some ct) ->
  length tapes = num_parties I -> Forall (str (tape_size I)) tapes -> sign_phase1 I key t pt tapes = Ok r ->
  length rs = m1 I -> Forall (elt (lambda I)) rs ->
  precompute_lagrange_polynomials (gops c) (get_first_n_field_elements c (m2 I + 1)) = Ok pre -> get pre (m2 I) = Ok last ->
  vmul (gops c) last last = Ok sq -> mapM (sbox_products I c pre last s t) (seq 0 (m1 I)) = Ok prods ->
  let xs := get_first_n_field_elements c (2 * m2 I + 1) in let value := horner gadd (gmul c) in
  exists q, sign_phase3 I c xs prods sq rs r tapes = Ok q /\
  length (r3_P q) = 2 * m2 I + 1 /\ Forall (elt (lambda I)) (r3_P q) /\ length (r3_shares q) = num_parties I /\ length (r3_pts q) = num_parties I /\
  (forall k, k < 2 * m2 I + 1 -> xsum (map (fun sh => nth k sh 0%N) (r3_shares q)) = value (r3_P q) (nth k xs 0%N)) /\
  (forall k, k < m2 I -> value (r3_P q) (nth k xs 0%N) = xsum rs) /\
  (forall j k, j < m1 I -> k < m2 I ->
     xsum (map (fun pp => nth k (nth j (fst pp) []) 0%N) (r3_pts q)) = gmul c (nth j rs 0%N) (lift c (nth (j + m1 I * k) s 0%N)) /\
     xsum (map (fun pp => nth k (nth j (snd pp) []) 0%N) (r3_pts q)) = lift c (nth (j + m1 I * k) t 0%N)).
Proof. exact api_phase3. Qed.
Print Assumptions C46_phase_3.
(** ... and the steps before phase 3 always return. *)
Theorem C46_phase_3_defined : forall I c key pt ct s t, regular I -> init_extension_field (lambda I) = Ok c ->
  str (key_size (i_aes I)) key -> str (pt_size I) pt -> aes_with_sbox_output (key_size (i_aes I)) key pt = Ok ((s, t), Some ct) ->
  exists pre last sq prods,
  precompute_lagrange_polynomials (gops c) (get_first_n_field_elements c (m2 I + 1)) = Ok pre /\ get pre (m2 I) = Ok last /\
  vmul (gops c) last last = Ok sq /\ mapM (sbox_products I c pre last s t) (seq 0 (m1 I)) = Ok prods.
Proof. exact api_phase3_defined. Qed.
Print Assumptions C46_phase_3_defined.

(** C46 in a signature: adding the parties' tapes, derived from the seeds as specified, to the corrections it contains
    gives the key and the recorded S-box outputs. *)
Theorem C46_signature : forall H I key pt ct s t fuel garb st st' msg sig, regular I ->
  let ks := key_size (i_aes I) in let sb := num_sboxes (i_aes I) in
  str ks key -> str (pt_size I) pt -> aes_with_sbox_output ks key pt = Ok ((s, t), Some ct) ->
  sign H fuel garb st I (key, pt ++ ct) msg = (st', Ok sig) -> forall e, e < num_rounds I ->
  let root := stream H (digest_size I =? 32) (le16 (i_params I) ++ key ++ (pt ++ ct) ++ msg) (32 + e * seed_size I) (seed_size I) in
  let seed := leaf_seed H (s_salt sig) e root (num_parties I) in
  let tape p := stream H (2 * seed_size I =? 32) (seed p ++ s_salt sig ++ le16 e ++ le16 p) 0 (tape_size I) in
  exists pf, nth_error (s_proofs sig) e = Some pf /\
    xorl (p_sk_delta pf) (xall ks (map (fun p => slice (tape p) 0 ks) (seq 0 (num_parties I)))) = key /\
    xorl (p_t_delta pf) (xall sb (map (fun p => slice (tape p) ks sb) (seq 0 (num_parties I)))) = t.
Proof. exact api_deltas. Qed.
Print Assumptions C46_signature.

Definition ex_bytes (o : N) (n : nat) : bytes := map (fun i => let i := N.of_nat i in (7 * i * i + 3 * i + o) mod 256)%N (seq 0 n).
Example C46_case : let I := nth 1 instances (mkInst (mkAes 0 0 0 0) 0 0 0 0 0 0 0 0) in
  regular I /\ str 16 (ex_bytes 1 16) /\ str (pt_size I) (ex_bytes 77 16) /\
  (exists s t ct, aes_with_sbox_output 16 (ex_bytes 1 16) (ex_bytes 77 16) = Ok ((s, t), Some ct)) /\
  exists tapes, length tapes = num_parties I /\ Forall (str (tape_size I)) tapes /\ NoDup tapes.
Proof.
  assert (X : forall o n, str n (ex_bytes o n)).
  { intros o n. split; [unfold ex_bytes; rewrite map_length; apply seq_length|]. apply Forall_map, Forall_forall. intros i _. apply N.mod_lt. discriminate. }
  split; [apply builtin_regular; exists 1%Z; reflexivity|]. split; [apply X|]. split; [apply X|]. split.
  - destruct (aes_with_sbox_output 16 (ex_bytes 1 16) (ex_bytes 77 16)) as [[[s t] [ct|]]| | |] eqn:E; [exists s, t, ct; reflexivity|exfalso; revert E; vm_compute; discriminate..].
  - exists (map (fun p => repeat (N.of_nat p) (tape_size (nth 1 instances (mkInst (mkAes 0 0 0 0) 0 0 0 0 0 0 0 0)))) (seq 0 64)).
    split; [vm_compute; reflexivity|]. split.
    + apply Forall_map, Forall_forall. intros p Hp. apply in_seq in Hp. split; [apply repeat_length|]. apply Forall_forall. intros x Hx. apply repeat_spec in Hx. rewrite Hx. change (N.of_nat p < 256)%N. lia.
    + apply FinFun.Injective_map_NoDup; [|apply seq_NoDup]. intros a b E. remember (tape_size _) as k eqn:Ek. destruct k; [vm_compute in Ek; discriminate Ek|]. cbn [repeat] in E. injection E as E _. lia.
Qed.
