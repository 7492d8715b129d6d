(** Property theorems about the random source (C57): rand_bytes of /repo/randomness.c over any operating system. *)
From Coq Require Import Arith NArith ZArith List Bool Lia.
From Verif Require Import Prelude Instances AesModel BanquetModel BanquetApi RandModel RandSpec RandFacts PropSign KeygenFacts FreeSpec.
Import ListNotations.

(** With getrandom: the call returns, never writes outside the buffer, and reports success exactly when the kernel stored as
    many bytes as asked for; the buffer then is these bytes. *)
Theorem C57_getrandom : forall o i dst, kernel_ok o -> exists r dst', rand_getrandom o i dst = Ok (r, dst') /\ length dst' = length dst /\
  (r = true <-> exists d, os_getrandom o i (length dst) = RData d /\ length d = length dst) /\
  (r = true -> os_getrandom o i (length dst) = RData dst') /\
  (r = false -> dst' = dst \/ exists d, os_getrandom o i (length dst) = RData d /\ length d < length dst /\ dst' = d ++ skipn (length d) dst).
Proof. exact getrandom_spec. Qed.
Print Assumptions C57_getrandom.

(** With /dev/urandom: unless the call goes on for ever (fuel), it does not write outside the buffer; on success the buffer is
    what the read calls delivered, in order; on failure the kernel reported an error, and behind what was delivered the buffer
    is as before; a descriptor that was opened has been closed, once. *)
Theorem C57_urandom_partial : forall linux fuel o i dst, kernel_ok o ->
  (exists r dst' i' ev j d, rand_urandom linux fuel o i dst = Ok (r, dst', i', ev) /\ i < j <= i' /\ delivered o j i' (length dst) d /\ length d <= length dst /\
    dst' = d ++ skipn (length d) dst /\ (r = true -> d = dst' /\ length d = length dst) /\
    (r = false -> (exists k, i <= k < i' /\ os_open o k = OError false) \/ (exists k, i <= k < i' /\ os_entropy o k = false) \/ exists k n, i <= k < i' /\ os_read o k n = RError false) /\
    (ev = [] \/ exists fd, ev = [Opened fd; Closed fd])) \/
  rand_urandom linux fuel o i dst = OutOfFuel.
Proof. intros linux fuel o i dst. exact (urandom_spec linux o fuel i dst). Qed.
Print Assumptions C57_urandom_partial.
(** It returns if neither open nor read is interrupted more than b times in a row and a read never stores nothing. *)
Theorem C57_urandom_returns_partial : forall linux o b, kernel_ok o ->
  (forall i, exists k, k < b /\ (forall j, j < k -> os_open o (i + j) = OError true) /\ os_open o (i + k) <> OError true) ->
  (forall i n, 0 < n -> exists k, k <= b /\ (forall j, j < k -> os_read o (i + j) n = RError true) /\
    (os_read o (i + k) n = RError false \/ exists d, os_read o (i + k) n = RData d /\ d <> [])) ->
  forall i dst fuel, b + length dst * S b <= fuel -> rand_urandom linux fuel o i dst <> OutOfFuel.
Proof. intros linux o b KO. exact (urandom_returns linux o KO b). Qed.
Print Assumptions C57_urandom_returns_partial.
(** It does not return if read reports the end of the file: return value 0 is taken for progress. *)
Theorem C57_end_of_file_refuted : forall linux, exists o, kernel_ok o /\ (forall i n, os_read o i n <> RError true) /\ (forall i, os_open o i = OFd 3%Z) /\ (forall i, os_entropy o i = true) /\
  forall fuel i dst, dst <> [] -> rand_urandom linux fuel o i dst = OutOfFuel.
Proof.
  intros linux. exists (mkOs (fun _ _ => RError false) (fun _ => OFd 3%Z) (fun _ => true) (fun _ _ => RData [])). split; [|split; [discriminate|]].
  - intros i n. split; intros d E; [injection E as <-; split; [apply Nat.le_0_l|constructor]|discriminate].
  - split; [reflexivity|]. split; [reflexivity|]. apply (urandom_endless linux _ 3%Z); reflexivity.
Qed.
Print Assumptions C57_end_of_file_refuted.

(** Key generation over getrandom.  If all its calls store what they are asked for, key and plaintext are exactly what two
    consecutive calls stored. *)
Theorem C57_keygen_partial : forall I fuel o key pk, regular I -> kernel_ok o ->
  (forall i n, exists d, os_getrandom o i n = RData d /\ length d = n) -> os_keygen fuel I o = Ok (key, pk) ->
  exists n, os_getrandom o (2 * n) (key_size (i_aes I)) = RData key /\ os_getrandom o (2 * n + 1) (pt_size I) = RData (firstn (pt_size I) pk).
Proof.
  intros I fuel o key pk B KO Full E. rewrite os_keygen_eq in E by exact KO.
  destruct (keygen_successful I fuel (rng_of I o) key pk B (rng_of_bytes I o KO)) as (n & E1 & E2).
  - intros i. unfold rng_of. destruct (Full i (if Nat.even i then key_size (i_aes I) else pt_size I)) as (d & -> & L). cbn [fst snd]. rewrite L, Nat.eqb_refl. auto.
  - exact E.
  - assert (Ev : Nat.even (2 * n) = true) by (rewrite Nat.even_mul; reflexivity).
    assert (Od : Nat.even (2 * n + 1) = false) by (rewrite Nat.even_add, Ev; reflexivity).
    exists n. unfold rng_of in E1, E2. rewrite Ev in E1. rewrite Od in E2.
    destruct (Full (2 * n) (key_size (i_aes I))) as (d & Ed & _). destruct (Full (2 * n + 1) (pt_size I)) as (d2 & Ed2 & _).
    rewrite Ed in E1. rewrite Ed2 in E2. cbn [snd] in E1, E2. rewrite Ed, Ed2, E1, E2. auto.
Qed.
Print Assumptions C57_keygen_partial.
(** Otherwise a key pair may be returned although the kernel refused to deliver any byte of the plaintext. *)
Theorem C57_keygen_refuted : exists o key pk, kernel_ok o /\ (forall i n, Nat.even i = false -> os_getrandom o i n = RError true) /\
  os_keygen 1 I1 o = Ok (key, pk) /\ firstn (pt_size I1) pk = zeros (pt_size I1).
Proof.
  set (o := mkOs (fun i n => if Nat.even i then RData (map (fun j => (11 * N.of_nat j * N.of_nat j + 3 * N.of_nat j + 1) mod 256)%N (seq 0 n)) else RError true) (fun _ => OError false) (fun _ => true) (fun _ _ => RError false)).
  exists o. let v := eval vm_compute in (os_keygen 1 I1 o) in match v with Ok (?k, ?p) => exists k, p; assert (E : os_keygen 1 I1 o = v) by (vm_cast_no_check (eq_refl v)) end.
  split; [|split; [|split; [exact E|reflexivity]]].
  - intros i n. split; intros d; cbn [os_read os_getrandom o]; [discriminate|]. destruct (Nat.even i); [|discriminate]. intros Ed. injection Ed as <-.
    split; [rewrite map_length, seq_length; apply le_n|]. apply Forall_map, Forall_forall. intros j _. apply N.mod_lt. discriminate.
  - intros i n Hi. cbn [os_getrandom o]. rewrite Hi. reflexivity.
Qed.
Print Assumptions C57_keygen_refuted.

(** With the library functions of macOS and Windows: the call returns, never writes outside the buffer, reports success exactly
    when the library does, and the buffer then is what the library stored.  The Windows variant refuses lengths that do not fit
    the library's argument, and leaves the buffer alone. *)
Theorem C57_library : forall l i dst, library_ok l ->
  (exists dst', rand_framework l i dst = Ok (fst (l i (length dst)), dst') /\ length dst' = length dst /\
    dst' = snd (l i (length dst)) ++ skipn (length (snd (l i (length dst)))) dst /\ (fst (l i (length dst)) = true -> dst' = snd (l i (length dst)))) /\
  rand_windows l i dst = if (2 ^ 32 <=? N.of_nat (length dst))%N then Ok (false, dst) else rand_framework l i dst.
Proof. exact library_spec. Qed.
Print Assumptions C57_library.
Example C57_library_case : exists l, library_ok l /\ rand_windows l 0 [1; 2]%N = Ok (true, [7; 7]%N) /\ rand_windows l 1 [1; 2]%N = Ok (false, [7; 2]%N).
Proof.
  exists (fun i n => if Nat.even i then (true, repeat 7%N n) else (false, repeat 7%N (n - 1))). split; [|split; reflexivity].
  intros i n. destruct (Nat.even i); cbn [fst snd]; rewrite repeat_length; (split; [lia|]); (split; [apply Forall_forall; intros x Hx; apply repeat_spec in Hx; subst; reflexivity|]); congruence.
Qed.

(** A case: open is interrupted once, every second read is, and reads store at most three bytes. *)
Definition ex_os : os := mkOs (fun i n => RData (map (fun j => let j := N.of_nat j in if Nat.even i then (7 * j * j + 3 * j + 1) mod 256 else (5 * j * j + 9 * j + 77) mod 256)%N (seq 0 n)))
  (fun i => if Nat.even i then OError true else OFd 7%Z) (fun _ => true)
  (fun i n => if Nat.even i then RError true else RData (map (fun j => N.of_nat (i + j) mod 256)%N (seq 0 (Nat.min n 3)))).
Example C57_case : kernel_ok ex_os /\ (forall i n, exists d, os_getrandom ex_os i n = RData d /\ length d = n) /\
  (forall i, exists k, k < 2 /\ (forall j, j < k -> os_open ex_os (i + j) = OError true) /\ os_open ex_os (i + k) <> OError true) /\
  (forall i n, 0 < n -> exists k, k <= 2 /\ (forall j, j < k -> os_read ex_os (i + j) n = RError true) /\
    (os_read ex_os (i + k) n = RError false \/ exists d, os_read ex_os (i + k) n = RData d /\ d <> [])) /\
  rand_urandom true 10 ex_os 0 [90; 91; 92; 93; 94; 95; 96]%N = Ok (true, [3; 4; 5; 5; 6; 7; 7]%N, 8, [Opened 7%Z; Closed 7%Z]) /\
  exists key pk, os_keygen 1 I1 ex_os = Ok (key, pk).
Proof.
  split; [|split; [|split; [|split; [|split]]]].
  - intros i n. split; intros d; cbn [os_read os_getrandom ex_os].
    + destruct (Nat.even i); [discriminate|]. intros E. injection E as <-. split; [rewrite map_length, seq_length; apply Nat.le_min_l|]. apply Forall_map, Forall_forall. intros j _. apply N.mod_lt. discriminate.
    + intros E. injection E as <-. split; [rewrite map_length, seq_length; apply le_n|]. apply Forall_map, Forall_forall. intros j _. cbn zeta. destruct (Nat.even i); apply N.mod_lt; discriminate.
  - intros i n. eexists. split; [reflexivity|]. rewrite map_length, seq_length. reflexivity.
  - intros i. destruct (Nat.even i) eqn:Ei.
    + exists 1. split; [lia|]. cbn [os_open ex_os]. split; [intros j Lj; replace (i + j) with i by lia; rewrite Ei; reflexivity|]. rewrite Nat.add_1_r, Nat.even_succ, <- Nat.negb_even, Ei. discriminate.
    + exists 0. split; [lia|]. cbn [os_open ex_os]. split; [intros j Lj; lia|]. rewrite Nat.add_0_r, Ei. discriminate.
  - intros i n Hn. destruct (Nat.even i) eqn:Ei.
    + exists 1. split; [lia|]. cbn [os_read ex_os]. split; [intros j Lj; replace (i + j) with i by lia; rewrite Ei; reflexivity|]. rewrite Nat.add_1_r, Nat.even_succ, <- Nat.negb_even, Ei. right. cbn [negb].
      eexists. split; [reflexivity|]. destruct n; [lia|]. discriminate.
    + exists 0. split; [lia|]. cbn [os_read ex_os]. split; [intros j Lj; lia|]. rewrite Nat.add_0_r, Ei. right. eexists. split; [reflexivity|]. destruct n; [lia|]. discriminate.
  - vm_compute. reflexivity.
  - assert (E : exists v, os_keygen 1 I1 ex_os = Ok v) by (let v := eval vm_compute in (os_keygen 1 I1 ex_os) in match v with Ok ?w => exists w; vm_cast_no_check (eq_refl v) end).
    destruct E as ((key & pk) & E). exists key, pk. exact E.
Qed.
