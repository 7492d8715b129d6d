(** Property theorems about parameters the library refuses (C72) and about signature objects whose vectors do not have the
    prescribed lengths (C73).  Outcomes: Ok, Throw (exception), UB (undefined behaviour), OutOfFuel.  [same_read],
    [long_enough] and [inside] are in LooseSpec.v.  [m_verify] is verification with the values of all repetitions and parties in
    one vector each, as in the program (MemModel.v, C76). *)
From Coq Require Import Arith NArith ZArith List Bool Lia.
From Verif Require Import Prelude FieldModel Instances HashModel AesModel BanquetModel FreeSpec BanquetPure Serialize SigSpec VerifyCases LooseSpec LooseFacts MemModel MemBody MemLoose BanquetApi PropSign.
Import ListNotations.

(** C72: with any other lambda than 2, 4, 5 or 6 signing and verifying throw, and leave the field of the process as it was. *)
Theorem C72_lambda : forall H I fuel garb st, ~ In (lambda I) [2; 4; 5; 6] ->
  (forall kp msg, sign H fuel garb st I kp msg = (st, Throw ELambda)) /\ (forall pk sig msg, verify H fuel garb st I pk sig msg = (st, Throw ELambda)).
Proof. exact refused_lambda. Qed.
Print Assumptions C72_lambda.
(** C72: with any other key size than 16, 24 or 32 key generation and signing throw, and verification returns no result
    (unless there are no repetitions).  The random source writes no further than its buffers. *)
Theorem C72_key_size : forall I, ~ In (key_size (i_aes I)) [16; 24; 32] ->
  (forall (r : rng) fuel, length (snd (r 0)) <= key_size (i_aes I) -> length (snd (r 1)) <= pt_size I -> 1 <= fuel -> keygen fuel I r = Throw EInvalidParams) /\
  (forall H c fuel garb st (kp : keypair) msg, init_extension_field (lambda I) = Ok c -> 2 * pt_size I <= length (snd kp) -> sign H fuel garb st I kp msg = (Some c, Throw EInvalidParams)) /\
  (forall H fuel garb st pk sig msg b, 1 <= num_rounds I -> snd (verify H fuel garb st I pk sig msg) <> Ok b /\ snd (m_verify H fuel garb st I pk sig msg) <> Ok b).
Proof.
  intros I N. split; [intros r fuel; exact (refused_keygen I r fuel N)|]. split; [intros H c fuel garb st kp msg; exact (refused_sign H I c fuel garb st kp msg N)|].
  intros H fuel garb st pk sig msg b HT. split; intros E; apply N; [exact (proj1 (proj2 (verify_need H I fuel garb st pk sig msg b E)) HT)|exact (proj1 (proj2 (m_verify_need H I fuel garb st pk sig msg b E)) HT)].
Qed.
Print Assumptions C72_key_size.
(** Parameters that are refused: those of the first set with lambda = 3, and with a key of 20 bytes. *)
Example C72_case : (let I := mkInst (i_aes I1) (digest_size I1) (seed_size I1) (num_rounds I1) (num_parties I1) (m1 I1) (m2 I1) 3 (i_params I1) in ~ In (lambda I) [2; 4; 5; 6]) /\
  (let I := mkInst (mkAes 20 16 1 200) (digest_size I1) (seed_size I1) (num_rounds I1) (num_parties I1) (m1 I1) (m2 I1) (lambda I1) (i_params I1) in ~ In (key_size (i_aes I)) [16; 24; 32] /\ 1 <= num_rounds I).
Proof. cbn. split; [|split]; [| |lia]; intros X; repeat (destruct X as [X|X]; [discriminate X|]); exact X. Qed.

(** C73: verification and serialization read nothing behind the first num_rounds proofs, the first m2 + 1 entries of the
    correction of P and the first m1 values S_j(R) and T_j(R): two signature objects that differ only there are treated the
    same, by either function, whatever the parameters. *)
Theorem C73_ignored : forall H I s s', same_read I s s' ->
  (forall fuel garb st pk msg, verify H fuel garb st I pk s msg = verify H fuel garb st I pk s' msg) /\
  (forall fuel garb st pk msg, m_verify H fuel garb st I pk s msg = m_verify H fuel garb st I pk s' msg) /\ (forall st, serialize st I s = serialize st I s').
Proof. intros H I s s' SR. split; [exact (same_verify H I s s' SR)|]. split; [exact (m_same_verify H I s s' SR)|exact (same_serialize I s s' SR)]. Qed.
Print Assumptions C73_ignored.
(** C73: if verification returns true or false, there were enough proofs, none of their vectors was too short, the commitment
    and the corrections ended inside the vector they are copied to (not necessarily inside their own slot: C76_spill), and the public
    key was long enough; h_3 is only looked at if h_1 is right. *)
Theorem C73_needed : forall H I fuel garb st pk sig msg b, snd (m_verify H fuel garb st I pk sig msg) = Ok b ->
  num_rounds I <= length (s_proofs sig) /\
  (forall e p, e < num_rounds I -> nth_error (s_proofs sig) e = Some p -> long_enough I p /\ inside I e p) /\
  2 * pt_size I <= length pk /\ digest_size I <= length (s_h1 sig) /\ (b = true -> digest_size I <= length (s_h3 sig)).
Proof. intros H I fuel garb st pk sig msg b E. destruct (m_verify_need H I fuel garb st pk sig msg b E) as (A & _ & B). split; [exact A|exact B]. Qed.
Print Assumptions C73_needed.
(** C73: too few proofs are an access outside a vector. *)
Theorem C73_few_proofs : forall H I c fuel garb st pk sig msg, init_extension_field (lambda I) = Ok c -> 2 * pt_size I <= length pk ->
  length (s_proofs sig) < num_rounds I -> snd (m_verify H fuel garb st I pk sig msg) = UB OutOfBounds.
Proof. exact m_few_proofs. Qed.
Print Assumptions C73_few_proofs.

(** An accepted signature, with one more proof and one more entry in a vector, is another object and is accepted. *)
Definition padded (s : signature) : signature :=
  mkSig (s_salt s) (s_h1 s) (s_h3 s)
    (map (fun p => mkProof (p_reveal p) (p_C p) (p_sk_delta p) (p_t_delta p) (p_P_delta p ++ [1%N]) (p_P_at_R p) (p_S_at_R p ++ [2%N]) (p_T_at_R p ++ [3%N; 4%N])) (s_proofs s)
     ++ [mkProof ([], 0) [] [] [] [] 0%N [] []]).
Lemma padded_same I s : sig_shape I s -> same_read I s (padded s).
Proof.
  intros SS. split; [reflexivity|]. split; [reflexivity|]. split; [reflexivity|]. intros e He. cbn [padded s_proofs]. rewrite nth_error_app1 by (rewrite map_length, (ss_len _ _ SS); exact He).
  rewrite nth_error_map. destruct (nth_error (s_proofs s) e) as [p|] eqn:Ep; [|exact Logic.I]. cbn [option_map].
  pose proof (proj1 (Forall_forall _ _) (ss_proofs _ _ SS) p (nth_error_In _ _ Ep)) as PS. unfold same_part. cbn.
  assert (F : forall (l x : list N) k, length l = k -> firstn k l = firstn k (l ++ x)). { intros l x k L. rewrite <- L, firstn_app, Nat.sub_diag, app_nil_r, firstn_all. reflexivity. }
  repeat (split; [reflexivity|]). split; [apply F, PS|]. split; apply F, PS.
Qed.
Lemma accepted_flat v pk sig : (forall fuel garb st, 1 <= fuel -> snd (verify (same v) fuel garb st I1 pk sig []) = Ok true) ->
  forall fuel garb st, 1 <= fuel -> snd (m_verify (same v) fuel garb st I1 pk sig []) = Ok true.
Proof.
  intros V fuel garb st Hf. rewrite (verify_sim _ _ _ _ _ _ _ _ (rg_proper _ (builtin_regular _ I1_builtin))); [apply V; exact Hf|]. intros u. rewrite V by exact Hf. discriminate.
Qed.
Theorem C73_extra_accepted : exists H I pk msg sig sig', builtin I /\ sig_shape I sig /\ ~ sig_shape I sig' /\ sig <> sig' /\
  (forall fuel garb st, 1 <= fuel -> snd (m_verify H fuel garb st I pk sig msg) = Ok true) /\ (forall fuel garb st, 1 <= fuel -> snd (m_verify H fuel garb st I pk sig' msg) = Ok true).
Proof.
  destruct (case_sign 64 allowed_64) as (kp & _ & _ & S). destruct (S []) as (sig & SS & V). exists (same 64), I1, (snd kp), [], sig, (padded sig).
  assert (L : length (s_proofs (padded sig)) = num_rounds I1 + 1). { cbn [padded s_proofs]. rewrite app_length, map_length, (ss_len _ _ SS). reflexivity. }
  split; [exact I1_builtin|]. split; [exact SS|]. split; [intros X; rewrite (ss_len _ _ X) in L; lia|]. split; [intros X; rewrite <- X, (ss_len _ _ SS) in L; lia|]. split; [exact (accepted_flat _ _ _ V)|].
  intros fuel garb st Hf. rewrite <- (m_same_verify (same 64) I1 sig (padded sig) (padded_same I1 sig SS)). apply (accepted_flat _ _ _ V). exact Hf.
Qed.
Print Assumptions C73_extra_accepted.
(** Objects the theorems speak of: an accepted one, and the same without its first proof. *)
Example C73_case : exists pk sig, (forall fuel garb st, 1 <= fuel -> snd (m_verify (same 64) fuel garb st I1 pk sig []) = Ok true) /\ 2 * pt_size I1 <= length pk /\
  length (s_proofs (mkSig (s_salt sig) (s_h1 sig) (s_h3 sig) (tl (s_proofs sig)))) < num_rounds I1.
Proof.
  destruct (case_sign 64 allowed_64) as (kp & _ & Hp & S). destruct (S []) as (sig & SS & V). exists (snd kp), sig. split; [exact (accepted_flat _ _ _ V)|]. split; [rewrite (proj1 Hp); apply le_n|].
  cbn [s_proofs]. pose proof (ss_len _ _ SS) as L. destruct (s_proofs sig) as [|p l]; cbn [tl length] in *; [|lia]. discriminate L.
Qed.
