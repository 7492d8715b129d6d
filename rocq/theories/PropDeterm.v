(** Property theorems about the outcome of a call being determined by its arguments (C75).
    [after H h]: the state of a process that made the calls h.  [fuel] bounds the sampling loops and [garb] is the content of
    uninitialised memory: an outcome other than OutOfFuel is an outcome of the real call, be it a result (Ok), an exception
    (Throw) or undefined behaviour (UB).  No condition is put on the parameters, keys, signatures and messages. *)
From Coq Require Import Arith NArith ZArith List Bool Lia.
From Verif Require Import Prelude FieldModel Instances HashModel BanquetModel BanquetApi History FreeSpec VerifyCases SerialFacts AcceptFacts AesShares BanquetVerify PropSign CrossCases PropCross DetermFacts.
Import ListNotations.

(** verification: whatever calls two processes made before, whatever their memory holds *)
Theorem C75_verify : forall H h1 h2 fuel1 fuel2 garb1 garb2 I pk sig msg r1 r2,
  snd (verify H fuel1 garb1 (after H h1) I pk sig msg) = r1 -> r1 <> OutOfFuel ->
  snd (verify H fuel2 garb2 (after H h2) I pk sig msg) = r2 -> r2 <> OutOfFuel -> r1 = r2.
Proof. intros H h1 h2 fuel1 fuel2 garb1 garb2 I pk sig msg r1 r2 <- N1 <- N2. apply verify_determined; assumption. Qed.
Print Assumptions C75_verify.
(** signing: also which exception, and whether there is one *)
Theorem C75_sign : forall H h1 h2 fuel1 fuel2 garb1 garb2 I kp msg r1 r2,
  snd (sign H fuel1 garb1 (after H h1) I kp msg) = r1 -> r1 <> OutOfFuel ->
  snd (sign H fuel2 garb2 (after H h2) I kp msg) = r2 -> r2 <> OutOfFuel -> r1 = r2.
Proof. intros H h1 h2 fuel1 fuel2 garb1 garb2 I kp msg r1 r2 <- N1 <- N2. apply sign_determined; assumption. Qed.
Print Assumptions C75_sign.
(** deserialization: in processes whose current field has the same element size *)
Theorem C75_deserialize : forall H h1 h2 fuel1 fuel2 garb1 garb2 I ser r1 r2,
  st_byte_size (after H h1) = st_byte_size (after H h2) ->
  deserialize H fuel1 garb1 (after H h1) I ser = r1 -> r1 <> OutOfFuel ->
  deserialize H fuel2 garb2 (after H h2) I ser = r2 -> r2 <> OutOfFuel -> r1 = r2.
Proof. intros H h1 h2 fuel1 fuel2 garb1 garb2 I ser r1 r2 E <- N1 <- N2. apply deserialize_determined; assumption. Qed.
Print Assumptions C75_deserialize.
(** so it is after any two histories that end with a call of sign or verify under parameters with the same field, however that
    call ended *)
Definition under (lam : nat) (x : call) : Prop :=
  match x with CSign _ _ J _ _ => lambda J = lam | CVerify _ _ J _ _ _ => lambda J = lam | _ => False end.
Theorem C75_deserialize_after : forall H h1 h2 x1 x2 fuel1 fuel2 garb1 garb2 I lam ser r1 r2,
  4 <= lam <= 6 -> under lam x1 -> under lam x2 ->
  deserialize H fuel1 garb1 (after H (h1 ++ [x1])) I ser = r1 -> r1 <> OutOfFuel ->
  deserialize H fuel2 garb2 (after H (h2 ++ [x2])) I ser = r2 -> r2 <> OutOfFuel -> r1 = r2.
Proof.
  intros H h1 h2 x1 x2 fuel1 fuel2 garb1 garb2 I lam ser r1 r2 L U1 U2.
  assert (A : exists c, init_extension_field lam = Ok c).
  { destruct L as [L1 L2]. destruct lam as [|[|[|[|[|[|[|]]]]]]]; try lia; eexists; reflexivity. }
  destruct A as [c Hc].
  assert (B : forall h x, under lam x -> after H (h ++ [x]) = Some c).
  { intros h x U. unfold after. rewrite fold_left_app. cbn [fold_left]. destruct x; try contradiction U; cbn [step under] in *.
    - unfold sign. rewrite U, (with_field_ok _ _ _ _ Hc). reflexivity.
    - unfold verify. rewrite U, (with_field_ok _ _ _ _ Hc). reflexivity. }
  apply C75_deserialize. rewrite (B _ _ U1), (B _ _ U2). reflexivity.
Qed.
Print Assumptions C75_deserialize_after.
(** key generation: determined by what the random source delivers *)
Theorem C75_keygen : forall I (r : rng) fuel1 fuel2 r1 r2, keygen fuel1 I r = r1 -> r1 <> OutOfFuel -> keygen fuel2 I r = r2 -> r2 <> OutOfFuel -> r1 = r2.
Proof. intros I r fuel1 fuel2 r1 r2 <- N1 <- N2. apply keygen_determined; assumption. Qed.
Print Assumptions C75_keygen.

(** Both processes accept: the first did nothing before, the second had called verify with an empty public key. *)
Example C75_case : exists sig (h : list call), after (same 64) h <> None /\ forall fuel garb pk msg, str 32 pk -> 1 <= fuel ->
  snd (verify (same 64) fuel garb (after (same 64) []) I1 pk sig msg) = Ok true /\ snd (verify (same 64) fuel garb (after (same 64) h) I1 pk sig msg) = Ok true.
Proof.
  destruct C74_case as (_ & _ & _ & _ & c & ser & sig & sig' & _ & _ & _ & _ & _ & _ & _ & V).
  exists sig, [CVerify 0 (fun _ => 0%N) I1 [] sig []]. split; [discriminate|]. intros fuel garb pk msg P F.
  split; apply V; assumption.
Qed.
