(** Property theorems about how long drawing goes on (C77).  Evaluation points, closed parties and keys are drawn by discarding
    candidates; in the model [fuel] bounds the candidates of one draw and [OutOfFuel] says that a call is still drawing.
    [stream H v d 0 n]: the first n bytes of the hash output for d; [str n s]: s is n bytes; [point_cands I q s] and
    [party_cands I q s]: the q candidates in s (Unbias); [allowed_point I c x]: x is not an interpolation point;
    [late a b T q] (LateSpec): the number of sequences of q candidates with fewer than T of the a acceptable ones. *)
From Coq Require Import Arith NArith ZArith List Bool Lia.
From Verif Require Import Prelude FieldModel FieldSpec Instances HashModel AesSpec AesBase AesApi AesShares BanquetModel BanquetPure Serialize BanquetApi SigSpec Unbias UnbiasApi UnbiasKey History FreeSpec LateSpec LateFacts LateApi VerifyCases PropSign.
Import ListNotations.

(** C77, evaluation points: the outputs of q candidates among which the T evaluation points are not found are exactly
    [late (256^lambda - m2) m2 T q] of the 256^(q lambda); of those with T + d candidates at most the share
    choose (T + d) (d + 1) * (m2 / 256^lambda)^(d + 1). *)
Theorem C77_points : forall I c, proper I -> init_extension_field (lambda I) = Ok c -> m2 I <= 256 ^ lambda I /\
  forall q, exists l, NoDup l /\
  (forall s, In s l <-> str (q * lambda I) s /\ length (filter (allowed_point I c) (point_cands I q s)) < num_rounds I) /\
  length l = late (256 ^ lambda I - m2 I) (m2 I) (num_rounds I) q /\
  forall d, q = num_rounds I + d -> length l * (256 ^ lambda I) ^ (d + 1) <= choose q (d + 1) * m2 I ^ (d + 1) * (256 ^ lambda I) ^ q.
Proof.
  intros I c P Hc. split; [exact (proj1 (point_late I c 0 P Hc))|]. intros q. destruct (point_late I c q P Hc) as (LE & l & ND & IN & C).
  exists l. split; [exact ND|]. split; [exact IN|]. split; [exact C|]. intros d ->. rewrite C. apply late_share. lia.
Qed.
Print Assumptions C77_points.
(** C77, closed parties: likewise, with N * 2^(8w-k) acceptable candidates of w bytes, k = ceil(log2 N); none are discarded when N is
    a power of two. *)
Theorem C77_parties : forall I q, proper I ->
  let w := if 256 <? num_parties I then 2 else 1 in let k := Nat.log2_up (num_parties I) in exists l, NoDup l /\
  (forall s, In s l <-> str (q * w) s /\ length (filter (fun p => p <? num_parties I) (party_cands I q s)) < num_rounds I) /\
  length l = late (num_parties I * 2 ^ (8 * w - k)) ((2 ^ k - num_parties I) * 2 ^ (8 * w - k)) (num_rounds I) q /\
  (num_parties I = 2 ^ k -> num_rounds I <= q -> l = []).
Proof.
  intros I q P w k. destruct (pr_parties _ P) as [H2 HN]. destruct (party_late I q ltac:(lia) HN) as (l & ND & IN & C). exists l. split; [exact ND|]. split; [exact IN|]. split; [exact C|].
  intros E Hq. fold w k in C. rewrite <- E, Nat.sub_diag in C. rewrite late_none in C by exact Hq. destruct l; [reflexivity|discriminate C].
Qed.
Print Assumptions C77_parties.
(** C77, verification that is still drawing with q candidates allowed: the first q candidates of the output for the signature's
    h_2 contain too few evaluation points, or those of the output for its h_3 too few parties. *)
Theorem C77_verify : forall H I c fuel garb st pk sig msg q, proper I -> init_extension_field (lambda I) = Ok c -> sig_shape I sig -> str (2 * pt_size I) pk -> q <= fuel ->
  snd (verify H fuel garb st I pk sig msg) = OutOfFuel ->
  length (filter (allowed_point I c) (point_cands I q (stream H (digest_size I =? 32) (h2_of H I sig) 0 (q * lambda I)))) < num_rounds I \/
  length (filter (fun p => p <? num_parties I) (party_cands I q (stream H (digest_size I =? 32) (s_h3 sig) 0 (q * (if 256 <? num_parties I then 2 else 1))))) < num_rounds I.
Proof. exact verify_late. Qed.
Print Assumptions C77_verify.
(** C77, signing: a call that returns a signature when given time returns it with q candidates allowed, unless the same holds of
    that signature. *)
Theorem C77_sign : forall H I c kf r kp fuel garb st st' msg sig fuel2 garb2 st2 q, proper I -> near_power (num_parties I) -> init_extension_field (lambda I) = Ok c -> rng_bytes r -> keygen kf I r = Ok kp ->
  sign H fuel garb st I kp msg = (st', Ok sig) -> q <= fuel2 ->
  snd (sign H fuel2 garb2 st2 I kp msg) = Ok sig \/
  length (filter (allowed_point I c) (point_cands I q (stream H (digest_size I =? 32) (h2_of H I sig) 0 (q * lambda I)))) < num_rounds I \/
  length (filter (fun p => p <? num_parties I) (party_cands I q (stream H (digest_size I =? 32) (s_h3 sig) 0 (q * (if 256 <? num_parties I then 2 else 1))))) < num_rounds I.
Proof. exact sign_late. Qed.
Print Assumptions C77_sign.
(** C77, key generation: with B of the 256^(ks+ps) pairs of a key and a plaintext having a zero S-box input, exactly B^q of the
    strings of random bytes for q attempts leave it without a key pair; B is not all. *)
Theorem C77_keygen : forall I, regular I ->
  let ks := key_size (i_aes I) in let ps := block_size (i_aes I) * num_blocks (i_aes I) in let nk := ks / 4 in
  exists lb, NoDup lb /\ (forall a, In a lb <-> str (ks + ps) a /\ In 0%N (all_sbox_inputs nk (firstn ks a) (blocks nk (skipn ks a)))) /\ length lb < 256 ^ (ks + ps) /\
  forall q, exists l, NoDup l /\ length l = length lb ^ q /\
  forall s, In s l <-> str (q * (ks + ps)) s /\ keygen q I (from_bytes_of ks ps s) = OutOfFuel.
Proof. exact key_late. Qed.
Print Assumptions C77_keygen.

(** For the first parameter set (31 repetitions, 4-byte elements, 20 interpolation points): of the outputs with 32 candidates at
    most the share 496 * 20^2 / 2^64 does not suffice, and one that does not: every candidate the interpolation point 2.
    Signing with such a hash function draws for ever.  Key generation without a result: the random source returning zeros. *)
Definition twos : oracle := fun _ _ e => if e mod 4 =? 0 then 2%N else 0%N.
Example C77_case : proper I1 /\ num_rounds I1 = 31 /\ lambda I1 = 4 /\ m2 I1 = 20 /\ choose 32 2 = 496 /\
  late 3 1 2 4 = 13 /\ late 3 0 2 4 = 0 /\
  exists c, init_extension_field (lambda I1) = Ok c /\ allowed_point I1 c 2 = false /\ 
  (forall d q, length (filter (allowed_point I1 c) (point_cands I1 q (stream twos (digest_size I1 =? 32) d 0 (q * lambda I1)))) = 0) /\
  keygen 3 I1 (from_bytes_of 16 16 (zeros 96)) = OutOfFuel /\ str (3 * (16 + 16)) (zeros 96).
Proof.
  split; [apply rg_proper, builtin_regular; exists 1%Z; reflexivity|]. split; [reflexivity|]. split; [reflexivity|]. split; [reflexivity|].
  split; [vm_compute; reflexivity|]. split; [reflexivity|]. split; [reflexivity|].
  destruct I1_field as [c Ec]. exists c. split; [exact Ec|].
  assert (A : allowed_point I1 c 2 = false) by (injection Ec as <-; vm_compute; reflexivity). split; [exact A|]. split; [|split].
  - intros d q. assert (E : point_cands I1 q (stream twos (digest_size I1 =? 32) d 0 (q * lambda I1)) = map (fun _ => 2%N) (seq 0 q)).
    { unfold point_cands. apply map_ext_in. intros k Hk. apply in_seq in Hk. rewrite window_stream by lia. unfold stream. change (lambda I1) with 4. cbn [seq map].
      unfold twos. rewrite !(Nat.mod_mul k 4) by lia.
      assert (M : forall i, i < 4 -> (k * 4 + i) mod 4 = i) by (intros i Hi; rewrite Nat.add_comm, Nat.mod_add by lia; apply Nat.mod_small; exact Hi).
      replace (S (k * 4)) with (k * 4 + 1) by lia. replace (S (k * 4 + 1)) with (k * 4 + 2) by lia. replace (S (k * 4 + 2)) with (k * 4 + 3) by lia. rewrite !M by lia. reflexivity. }
    rewrite E. clear E. assert (G : forall o, filter (allowed_point I1 c) (map (fun _ => 2%N) (seq o q)) = []); [|rewrite G; reflexivity].
    induction q as [|q IH]; intros o; [reflexivity|]. cbn [seq map filter]. rewrite A. apply IH.
  - vm_compute. reflexivity.
  - split; [reflexivity|]. apply Forall_forall. intros x Hx. apply repeat_spec in Hx. subst x. reflexivity.
Qed.
