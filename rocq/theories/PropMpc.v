(** Property theorems about the evaluation of AES on additive shares (C23).
    In AesShares: [aes_n_s_shares nk] is aes_128_s_shares, aes_192_s_shares or aes_256_s_shares; its result is one
    (ciphertext share, S-box input share) pair per party; [xall n l] is the exclusive or of the n-byte strings in l;
    [str n b] says b is n bytes; [ct_of], [s_of] are the recombined ciphertext and S-box inputs;
    [shares_in nk keys ts pt] says there is at least one party and every share has the right size. *)
From Coq Require Import Arith NArith List Bool Lia.
From Verif Require Import Prelude Gf8 AesSpec AesModel AesApi AesShares.
Import ListNotations.
Local Open Scope N_scope.

(** C23: for every number of parties and every sharing the evaluation returns (no out-of-bounds access), with a
    ciphertext share and an S-box input share of the right size for each party. *)
Theorem C23_shares_defined : forall nk keys ts pt, shares_in nk keys ts pt ->
  exists rs, aes_n_s_shares nk keys ts pt (nsboxes nk) = Ok rs /\ length rs = length keys /\
    Forall (fun r => str (16 * nblocks nk) (fst r) /\ str (nsboxes nk) (snd r)) rs.
Proof. exact shares_defined. Qed.
Print Assumptions C23_shares_defined.

(** the shares of an accepted key and of the recorded inverses recombine to the ciphertext and to the recorded
    S-box inputs *)
Theorem C23_shares_recombine : forall nk keys ts pt s t ct, shares_in nk keys ts pt ->
  aes_n_save nk (xall (4 * nk) keys) pt = ((s, t), Some ct) -> xall (nsboxes nk) ts = t ->
  exists rs, aes_n_s_shares nk keys ts pt (nsboxes nk) = Ok rs /\ ct_of nk rs = ct /\ s_of nk rs = s.
Proof. exact shares_complete. Qed.
Print Assumptions C23_shares_recombine.

(** conversely, if every recombined S-box input times the recombined t is 1 then the sharing is of an accepted AES
    evaluation: no other t passes *)
Theorem C23_shares_sound : forall nk keys ts pt rs, shares_in nk keys ts pt ->
  aes_n_s_shares nk keys ts pt (nsboxes nk) = Ok rs ->
  (forall i, (i < nsboxes nk)%nat -> fmul (nth i (s_of nk rs) 0) (nth i (xall (nsboxes nk) ts) 0) = 1) ->
  aes_n_save nk (xall (4 * nk) keys) pt = ((s_of nk rs, xall (nsboxes nk) ts), Some (ct_of nk rs)).
Proof. exact shares_sound. Qed.
Print Assumptions C23_shares_sound.

(** three parties holding shares of an accepted key *)
Definition mx (o : N) (n : nat) : bytes := map (fun i => let i := N.of_nat i in (7 * i * i + 3 * i + o) mod 256) (seq 0 n).
Definition ex_keys : list bytes := [mx 33 16; mx 90 16; xorl (mx 33 16) (xorl (mx 90 16) (mx 1 16))].
Definition ex_ts : list bytes :=
  let t := snd (fst (aes_n_save 4 (mx 1 16) (mx 77 16))) in [mx 5 200; mx 6 200; xorl (mx 5 200) (xorl (mx 6 200) t)].
Definition strb (n : nat) (b : bytes) : bool := (length b =? n)%nat && isbytesb b.
Example C23_case :
  let ts := ex_ts in let '((s, t), o) := aes_n_save 4 (xall 16 ex_keys) (mx 77 16) in
  (forallb (strb 16) ex_keys && forallb (strb 200) ts && strb 16 (mx 77 16) && (length ts =? 3)%nat &&
   (length ex_keys =? 3)%nat && match o with Some _ => true | None => false end &&
   forallb (fun p => fst p =? snd p) (combine t (xall 200 ts)))%bool = true.
Proof. vm_compute. reflexivity. Qed.
