(** Property theorems about key generation, signing and verification (C01, C02, C03, C05, C10, C38).
    [regular I]: I is one of the 23 structures banquet_instance_get returns, or other parameters of the kind spelt out in
    FreeSpec (see C36_builtin_regular): one of the three ciphers, a supported field, m1 * m2 = number of S-boxes, 1 to 32 seed
    bytes, at least one repetition, and 2, 4, 8, ... or 256 parties.  [keygen kf I r = Ok kp]: banquet_keygen
    returns kp when the random source behaves like r.  [sign H fuel garb st I kp msg] is the new process state and the
    outcome of banquet_sign when the hash function is H, the process state is st, the rejection loops may run fuel times
    and the indeterminate bytes are garb.  Outcomes: Ok, Throw (exception), UB (undefined behaviour), OutOfFuel. *)
From Coq Require Import Arith NArith ZArith List Bool Lia.
From Verif Require Import Prelude FieldModel Instances HashModel TreeModel AesSpec AesBase AesApi AesShares BanquetModel BanquetPure BanquetVerify Serialize BanquetApi History SignFacts FreeSpec.
Import ListNotations.

(** C01: what keygen's keys sign, verify accepts: whatever the hash function, the message, the states of the processes
    that sign and verify, the garbage in memory; the verifier needs no more sampling attempts than the signer. *)
Theorem C01_honest_signatures_verify : forall H I kf r kp msg fuel garb st st' sig,
  regular I -> rng_bytes r -> keygen kf I r = Ok kp -> sign H fuel garb st I kp msg = (st', Ok sig) ->
  forall fuel2 garb2 st2, fuel <= fuel2 -> snd (verify H fuel2 garb2 st2 I (snd kp) sig msg) = Ok true.
Proof. exact honest_verify. Qed.
Print Assumptions C01_honest_signatures_verify.

(** C02: signing returns a signature, or it is still drawing R although the hash output of some digest contained fuel
    successive candidates among the m2 forbidden points; in particular no exception and no out-of-bounds access. *)
Theorem C02_sign_returns : forall H I c kf r kp msg fuel garb st,
  regular I -> init_extension_field (lambda I) = Ok c -> rng_bytes r -> keygen kf I r = Ok kp -> 1 <= fuel ->
  (exists sig, snd (sign H fuel garb st I kp msg) = Ok sig) \/
  (snd (sign H fuel garb st I kp msg) = OutOfFuel /\
   exists h2 k, forall i, i < fuel ->
     In (from_bytes (stream H (digest_size I =? 32) h2 ((k + i) * lambda I) (lambda I))) (get_first_n_field_elements c (m2 I))).
Proof. exact sign_returns. Qed.
Print Assumptions C02_sign_returns.

(** C03: what keygen returns is a key and a public key plaintext || AES(key, plaintext), block by block as in FIPS-197,
    and no S-box in that evaluation (key schedule included) has input zero. *)
Theorem C03_keygen_consistent : forall I kf r key pk, regular I -> rng_bytes r -> keygen kf I r = Ok (key, pk) ->
  exists pt, pk = pt ++ flat_map (cipher (nk_of I) key) (blocks (nk_of I) pt) /\
    length key = key_size (i_aes I) /\ length pt = block_size (i_aes I) * num_blocks (i_aes I) /\
    ~ In 0%N (all_sbox_inputs (nk_of I) key (blocks (nk_of I) pt)).
Proof. exact keygen_consistent. Qed.
Print Assumptions C03_keygen_consistent.

(** C05: a signature survives serialization and deserialization, and then verifies. *)
Theorem C05_transport : forall H I kf r kp msg fuel garb st st' sig,
  regular I -> rng_bytes r -> keygen kf I r = Ok kp -> sign H fuel garb st I kp msg = (st', Ok sig) ->
  exists ser, serialize st' I sig = Ok ser /\
  forall fuel2 garb2, fuel <= fuel2 -> exists sig', deserialize H fuel2 garb2 st' I ser = Ok sig' /\
    snd (verify H fuel2 garb2 st' I (snd kp) sig' msg) = Ok true.
Proof. exact sign_to_verify. Qed.
Print Assumptions C05_transport.

(** C10: after any history of API calls sign and verify answer as in a fresh process. *)
Theorem C10_sign_history : forall H h fuel garb I kp msg,
  snd (sign H fuel garb (after H h) I kp msg) = snd (sign H fuel garb (after H []) I kp msg).
Proof. exact (fun H h fuel garb I kp msg => sign_state H fuel garb (after H h) (after H []) I kp msg). Qed.
Print Assumptions C10_sign_history.
Theorem C10_verify_history : forall H h fuel garb I pk sig msg,
  snd (verify H fuel garb (after H h) I pk sig msg) = snd (verify H fuel garb (after H []) I pk sig msg).
Proof. exact (fun H h fuel garb I pk sig msg => verify_state H fuel garb (after H h) (after H []) I pk sig msg). Qed.
Print Assumptions C10_verify_history.

(** C38: two signing calls with equal arguments, after any histories, with any garbage in memory and any two bounds on
    the sampling loops, return the same signature. *)
Theorem C38_deterministic : forall H h1 h2 fuel1 fuel2 garb1 garb2 I kp msg sig1 sig2, 1 <= num_parties I ->
  snd (sign H fuel1 garb1 (after H h1) I kp msg) = Ok sig1 -> snd (sign H fuel2 garb2 (after H h2) I kp msg) = Ok sig2 -> sig1 = sig2.
Proof. exact sign_deterministic. Qed.
Print Assumptions C38_deterministic.
(** the salt is the start of the hash stream of (parameter number, key, public key, message) *)
Theorem C38_salt : forall H fuel garb st I kp msg sig, snd (sign H fuel garb st I kp msg) = Ok sig ->
  s_salt sig = stream H (digest_size I =? 32) (le16 (i_params I) ++ fst kp ++ snd kp ++ msg) 0 32.
Proof. exact sign_salt. Qed.
Print Assumptions C38_salt.

(** A concrete run for C01, C02, C03, C05: the first parameter set, a random source delivering an acceptable key and a hash
    function whose every output byte is 255. *)
Definition I1 : instance := nth 1 instances (nth 0 instances (mkInst (mkAes 0 0 0 0) 0 0 0 0 0 0 0 0)).
Definition ex_rng : rng := fun i =>
  (true, map (fun j => let j := N.of_nat j in if Nat.even i then (7 * j * j + 3 * j + 1) mod 256 else (5 * j * j + 9 * j + 77) mod 256)%N (seq 0 16)).
Definition ones : oracle := fun _ _ _ => 255%N.
Example C01_case : regular I1 /\ rng_bytes ex_rng /\ exists kp, keygen 1 I1 ex_rng = Ok kp /\
  forall garb st msg, exists sig, snd (sign ones 1 garb st I1 kp msg) = Ok sig.
Proof.
  assert (B : regular I1) by (apply builtin_regular; exists 1%Z; reflexivity). assert (R : rng_bytes ex_rng).
  { intros i. unfold ex_rng. cbn [snd]. apply Forall_map, Forall_forall. intros j _. destruct (Nat.even i); apply N.mod_lt; discriminate. }
  split; [exact B|]. split; [exact R|].
  destruct (keygen 1 I1 ex_rng) as [kp| | |] eqn:E; [|exfalso; revert E; vm_compute; discriminate..].
  exists kp. split; [reflexivity|]. intros garb st msg.
  destruct (init_extension_field (lambda I1)) as [c| | |] eqn:Ec; [|discriminate Ec..].
  destruct (C02_sign_returns ones I1 c 1 ex_rng kp msg 1 garb st B Ec R E (le_n 1)) as [X|(_ & h2 & k & X)]; [exact X|]. exfalso.
  specialize (X 0 (le_n 1)). injection Ec as <-. revert X.
  change (stream ones (digest_size I1 =? 32) h2 ((k + 0) * lambda I1) (lambda I1)) with [255; 255; 255; 255]%N.
  intros X. vm_compute in X. repeat (destruct X as [X|X]; [discriminate X|]). exact X.
Qed.
