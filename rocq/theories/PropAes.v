(** Property theorems about AES (C20-C23).  Specification: AesSpec (FIPS-197).
    In AesApi: [aes_in nk key pt] says key has 4*nk bytes with nk = 4, 6 or 8 and pt one block (nk = 4) or two
    blocks; [aes_n nk] is aes_128, aes_192 or aes_256 and [aes_n_save nk] its _with_sbox_output version;
    [blocks nk pt] are the 16-byte blocks; [nsboxes nk] is 200, 416 or 500;
    [all_sbox_inputs] are the inputs of every S-box of the FIPS-197 key expansion and of every block. *)
From Coq Require Import Arith NArith List Bool Lia.
From Verif Require Import Prelude Gf8 AesSpec AesModel AesApi.
Import ListNotations.
Local Open Scope N_scope.

(** C20: an accepted evaluation is AES. *)
Theorem C20_aes_128_is_fips197 : forall key pt ct,
  length key = 16%nat -> length pt = 16%nat -> is_bytes key -> is_bytes pt ->
  aes_128 key pt = Some ct -> ct = cipher 4 key pt.
Proof. exact aes_correct_128. Qed.
Print Assumptions C20_aes_128_is_fips197.
Theorem C20_aes_192_is_fips197 : forall key pt ct,
  length key = 24%nat -> length pt = 32%nat -> is_bytes key -> is_bytes pt ->
  aes_192 key pt = Some ct -> ct = cipher 6 key (firstn 16 pt) ++ cipher 6 key (skipn 16 pt).
Proof. exact aes_correct_192. Qed.
Print Assumptions C20_aes_192_is_fips197.
Theorem C20_aes_256_is_fips197 : forall key pt ct,
  length key = 32%nat -> length pt = 32%nat -> is_bytes key -> is_bytes pt ->
  aes_256 key pt = Some ct -> ct = cipher 8 key (firstn 16 pt) ++ cipher 8 key (skipn 16 pt).
Proof. exact aes_correct_256. Qed.
Print Assumptions C20_aes_256_is_fips197.
(** concrete accepted inputs *)
Definition ex_key (o : N) (n : nat) : bytes := map (fun i => let i := N.of_nat i in (7 * i * i + 3 * i + o) mod 256) (seq 0 n).
Definition ex_pt (n : nat) : bytes := map (fun i => let i := N.of_nat i in (5 * i * i + 9 * i + 77) mod 256) (seq 0 n).
Definition accepted (o : option bytes) : bool := match o with Some _ => true | None => false end.
Example C20_case :
  accepted (aes_128 (ex_key 1 16) (ex_pt 16)) = true /\ accepted (aes_192 (ex_key 2 24) (ex_pt 32)) = true /\
  accepted (aes_256 (ex_key 8 32) (ex_pt 32)) = true /\
  forallb isbytesb [ex_key 1 16; ex_pt 16; ex_key 2 24; ex_pt 32; ex_key 8 32] = true.
Proof. vm_compute. auto. Qed.

(** C21: the evaluation is refused exactly when some S-box input is zero. *)
Theorem C21_zero_detection_exact : forall nk key pt, aes_in nk key pt ->
  (aes_n nk key pt = None <-> In 0 (all_sbox_inputs nk key (blocks nk pt))).
Proof. exact aes_none. Qed.
Print Assumptions C21_zero_detection_exact.
Example C21_case : aes_128 (zeros 16) (zeros 16) = None /\ accepted (aes_128 (ex_key 1 16) (ex_pt 16)) = true.
Proof. vm_compute. auto. Qed.

(** C22: an accepted evaluation, run again to record, gives the same ciphertext and exactly the NUM_SBOXES S-box
    inputs of the AES computation (FIPS-197), each with its multiplicative inverse. *)
Theorem C22_sbox_pairs : forall nk key pt ct, aes_in nk key pt -> aes_n nk key pt = Some ct ->
  exists s t, aes_n_save nk key pt = ((s, t), Some ct) /\ s = sbox_trace nk key (blocks nk pt) /\
    length s = nsboxes nk /\ length t = nsboxes nk /\
    forall i, (i < nsboxes nk)%nat -> nth i s 0 < 256 /\ nth i t 0 < 256 /\ fmul (nth i s 0) (nth i t 0) = 1.
Proof. exact aes_pairs. Qed.
Print Assumptions C22_sbox_pairs.
(** the plain and the recording evaluation agree on every input, accepted or not *)
Theorem C22_recording_agrees : forall nk key pt, aes_in nk key pt -> aes_n nk key pt = snd (aes_n_save nk key pt).
Proof. exact aes_same. Qed.
Print Assumptions C22_recording_agrees.
Example C22_case : aes_in 6 (ex_key 2 24) (ex_pt 32) /\ accepted (aes_n 6 (ex_key 2 24) (ex_pt 32)) = true.
Proof.
  split; [|vm_compute; reflexivity]. split; [cbn; auto|]. split; [reflexivity|].
  split; [|split; [reflexivity|]]; apply isbytesb_ok; vm_compute; reflexivity.
Qed.
