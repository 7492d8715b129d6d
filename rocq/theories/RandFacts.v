(** Facts about rand_bytes (C57) *)
From Coq Require Import Arith NArith ZArith List Bool Lia Sorted.
From Verif Require Import Prelude Instances AesModel BanquetModel BanquetApi RandModel RandSpec.
Import ListNotations.

Lemma put_ok dst pos d : pos + length d <= length dst -> put dst pos d = Ok (firstn pos dst ++ d ++ skipn (pos + length d) dst).
Proof. intros L. unfold put. destruct (Nat.leb_spec (pos + length d) (length dst)); [reflexivity|lia]. Qed.
Lemma put_len (dst : bytes) pos (d : bytes) : pos + length d <= length dst -> length (firstn pos dst ++ d ++ skipn (pos + length d) dst) = length dst.
Proof. intros L. rewrite !app_length, firstn_length, skipn_length. lia. Qed.

Lemma put_put (dst : bytes) pos (d d' : bytes) : pos + length d <= length dst ->
  let dst1 := firstn pos dst ++ d ++ skipn (pos + length d) dst in
  firstn (pos + length d) dst1 ++ d' ++ skipn (pos + length d + length d') dst1 = firstn pos dst ++ (d ++ d') ++ skipn (pos + (length d + length d')) dst.
Proof.
  intros L dst1. assert (Lp : length (firstn pos dst ++ d) = pos + length d) by (rewrite app_length, firstn_length; lia).
  assert (E1 : dst1 = (firstn pos dst ++ d) ++ skipn (pos + length d) dst) by (unfold dst1; rewrite app_assoc; reflexivity).
  assert (SS : forall (l : bytes) a b, skipn a (skipn b l) = skipn (b + a) l).
  { clear. induction l as [|x l IHl]; intros a b; [rewrite !skipn_nil; reflexivity|]. destruct b; [reflexivity|]. cbn [skipn plus]. apply IHl. }
  rewrite E1. rewrite firstn_app, Lp, Nat.sub_diag, firstn_O, app_nil_r, firstn_all2 by lia.
  rewrite skipn_app, Lp, skipn_all2 by lia. cbn [app].
  replace (pos + length d + length d' - (pos + length d)) with (length d') by lia.
  rewrite SS, <- !app_assoc, Nat.add_assoc. reflexivity.
Qed.

Lemma getrandom_spec o i dst : kernel_ok o -> exists r dst', rand_getrandom o i dst = Ok (r, dst') /\ length dst' = length dst /\
  (r = true <-> exists d, os_getrandom o i (length dst) = RData d /\ length d = length dst) /\
  (r = true -> os_getrandom o i (length dst) = RData dst') /\
  (r = false -> dst' = dst \/ exists d, os_getrandom o i (length dst) = RData d /\ length d < length dst /\ dst' = d ++ skipn (length d) dst).
Proof.
  intros KO. unfold rand_getrandom. destruct (os_getrandom o i (length dst)) as [b|d] eqn:E.
  - exists false, dst. split; [reflexivity|]. split; [reflexivity|]. split; [split; [discriminate|intros (d & Ed & _); discriminate]|]. split; [discriminate|]. left. reflexivity.
  - destruct (proj2 (KO i (length dst)) d E) as [L _]. rewrite put_ok by (cbn; lia). cbn [bind firstn app plus].
    exists (length d =? length dst), (d ++ skipn (length d) dst). split; [reflexivity|]. split; [rewrite app_length, skipn_length; lia|].
    destruct (Nat.eqb_spec (length d) (length dst)) as [El|Nl].
    + split; [split; [intros _; exists d; auto|reflexivity]|]. split; [|discriminate]. intros _. rewrite El, skipn_all, app_nil_r. reflexivity.
    + split; [split; [discriminate|]|split; [discriminate|]].
      * intros (d0 & Ed & L0). injection Ed as <-. contradiction.
      * intros _. right. exists d. split; [reflexivity|]. split; [lia|reflexivity].
Qed.

Lemma open_spec o : forall fuel i, (exists fd i', open_loop fuel o i = Ok (fd, i') /\ i < i' /\ (fd = None -> exists k, i <= k < i' /\ os_open o k = OError false)) \/ open_loop fuel o i = OutOfFuel.
Proof.
  induction fuel as [|fuel IH]; intros i; cbn [open_loop]; [right; reflexivity|]. destruct (os_open o i) as [[|]|fd] eqn:Eo.
  - destruct (IH (S i)) as [(fd & i' & E & L & N)|E]; [left; exists fd, i'; split; [exact E|]; split; [lia|]|right; exact E].
    intros F. destruct (N F) as (k & Lk & Ek). exists k. split; [lia|exact Ek].
  - left. exists None, (S i). split; [reflexivity|]. split; [lia|]. intros _. exists i. split; [lia|exact Eo].
  - left. exists (Some fd), (S i). split; [reflexivity|]. split; [lia|discriminate].
Qed.
Lemma read_spec o : kernel_ok o -> forall fuel i dst pos, pos <= length dst ->
  (exists r dst' i' d, read_loop fuel o i dst pos = Ok (r, dst', i') /\ delivered o i i' (length dst - pos) d /\ pos + length d <= length dst /\
    dst' = firstn pos dst ++ d ++ skipn (pos + length d) dst /\
    (r = true <-> pos + length d = length dst) /\ (r = false -> exists j n, i <= j < i' /\ os_read o j n = RError false)) \/
  read_loop fuel o i dst pos = OutOfFuel.
Proof.
  intros KO.
  assert (fin : forall i (dst : bytes) pos, pos <= length dst -> length dst - pos = 0 -> exists r dst' i' d, Ok (true, dst, i) = Ok (r, dst', i') /\ delivered o i i' (length dst - pos) d /\ pos + length d <= length dst /\
    dst' = firstn pos dst ++ d ++ skipn (pos + length d) dst /\
    (r = true <-> pos + length d = length dst) /\ (r = false -> exists j n, i <= j < i' /\ os_read o j n = RError false)).
  { intros i dst pos L Ez. exists true, dst, i, []. split; [reflexivity|]. split; [constructor|]. cbn [length app]. rewrite Nat.add_0_r. split; [exact L|].
    split; [symmetry; apply firstn_skipn|]. split; [split; [intros _; lia|reflexivity]|discriminate]. }
  induction fuel as [|fuel IH]; intros i dst pos L; cbn [read_loop]; destruct (Nat.eqb_spec (length dst - pos) 0) as [Ez|Nz].
  - left. apply fin; assumption.
  - right. reflexivity.
  - left. apply fin; assumption.
  - destruct (os_read o i (length dst - pos)) as [[|]|d] eqn:Er.
    + destruct (IH (S i) dst pos L) as [(r & dst' & i' & d & E & D & Ld & Ed & R1 & R2)|E]; [|right; exact E].
      left. exists r, dst', i', d. split; [exact E|]. split; [eapply del_error; [exact Er|exact D]|]. split; [exact Ld|]. split; [exact Ed|]. split; [exact R1|].
      intros Hr. destruct (R2 Hr) as (j & n & Hj & Ej). exists j, n. split; [lia|exact Ej].
    + left. exists false, dst, (S i), []. split; [reflexivity|]. split; [eapply del_error; [exact Er|constructor]|]. cbn [length app]. rewrite Nat.add_0_r. split; [exact L|].
      split; [symmetry; apply firstn_skipn|]. split; [split; [discriminate|lia]|]. intros _. exists i, (length dst - pos). split; [lia|exact Er].
    + destruct (proj1 (KO i (length dst - pos)) d Er) as [Ld _]. rewrite put_ok by lia. cbn [bind].
      set (dst1 := firstn pos dst ++ d ++ skipn (pos + length d) dst). assert (L1 : length dst1 = length dst) by (apply put_len; lia).
      destruct (IH (S i) dst1 (pos + length d)) as [(r & dst' & i' & d' & E & D & Ld' & Ed & R1 & R2)|E]; [lia| |right; exact E].
      left. exists r, dst', i', (d ++ d'). rewrite app_length. split; [exact E|]. split; [eapply del_read; [exact Er|]; replace (length dst - pos - length d) with (length dst1 - (pos + length d)) by lia; exact D|]. split; [lia|].
      split; [|split; [rewrite R1, L1; split; intros; lia|]].
      * rewrite Ed. apply put_put. lia.
      * intros Hr. destruct (R2 Hr) as (j & n & Hj & Ej). exists j, n. split; [lia|exact Ej].
Qed.
Lemma urandom_spec linux o fuel i dst : kernel_ok o ->
  (exists r dst' i' ev j d, rand_urandom linux fuel o i dst = Ok (r, dst', i', ev) /\ i < j <= i' /\ delivered o j i' (length dst) d /\ length d <= length dst /\
    dst' = d ++ skipn (length d) dst /\ (r = true -> d = dst' /\ length d = length dst) /\
    (r = false -> (exists k, i <= k < i' /\ os_open o k = OError false) \/ (exists k, i <= k < i' /\ os_entropy o k = false) \/ exists k n, i <= k < i' /\ os_read o k n = RError false) /\
    (ev = [] \/ exists fd, ev = [Opened fd; Closed fd])) \/
  rand_urandom linux fuel o i dst = OutOfFuel.
Proof.
  intros KO. unfold rand_urandom. destruct (open_spec o fuel i) as [(ofd & i1 & -> & L1 & NF)| -> ]; [|right; reflexivity]. cbn [bind].
  destruct ofd as [fd|].
  2:{ left. exists false, dst, i1, [], i1, []. split; [reflexivity|]. split; [lia|]. split; [constructor|]. split; [cbn; lia|]. split; [reflexivity|]. split; [discriminate|]. split; [intros _; left; exact (NF eq_refl)|left; reflexivity]. }
  destruct (linux && negb (os_entropy o i1)) eqn:El.
  - apply andb_prop in El. destruct El as [_ El]. apply negb_true_iff in El.
    left. exists false, dst, (S i1), [Opened fd; Closed fd], (S i1), []. split; [reflexivity|]. split; [lia|]. split; [constructor|]. split; [cbn; lia|]. split; [reflexivity|]. split; [discriminate|].
    split; [|right; exists fd; reflexivity]. intros _. right. left. exists i1. split; [lia|exact El].
  - set (i2 := if linux then S i1 else i1). assert (L2 : i1 <= i2) by (unfold i2; destruct linux; lia).
    destruct (read_spec o KO fuel i2 dst 0 (Nat.le_0_l _)) as [(r & dst' & i' & d & -> & D & Ld & Ed & R1 & R2)| -> ]; [|right; reflexivity]. cbn [bind].
    assert (L3 : i2 <= i') by (clear -D; induction D; lia).
    left. exists r, dst', i', [Opened fd; Closed fd], i2, d. cbn [plus firstn app] in Ld, Ed, R1. split; [reflexivity|]. split; [lia|]. split; [rewrite Nat.sub_0_r in D; exact D|]. split; [exact Ld|]. split; [exact Ed|].
    split; [intros Hr; apply R1 in Hr; split; [rewrite Ed, Hr, skipn_all, app_nil_r; reflexivity|exact Hr]|]. split; [|right; exists fd; reflexivity].
    intros Hr. destruct (R2 Hr) as (j & n & Hj & Ej). right. right. exists j, n. split; [lia|exact Ej].
Qed.

(** ** When it returns *)
(** a kernel that opens the device, is never interrupted more than b times in a row and stores at least one byte when asked *)
Lemma read_returns o : kernel_ok o -> forall b, (forall i n, 0 < n -> exists k, k <= b /\ (forall j, j < k -> os_read o (i + j) n = RError true) /\ (os_read o (i + k) n = RError false \/ exists d, os_read o (i + k) n = RData d /\ d <> [])) ->
  forall len fuel i dst pos, length dst - pos <= len -> pos <= length dst -> len * S b <= fuel -> read_loop fuel o i dst pos <> OutOfFuel.
Proof.
  intros KO b Hk. induction len as [|len IH]; intros fuel i dst pos Ll Lp Lf.
  - destruct fuel; cbn [read_loop]; destruct (Nat.eqb_spec (length dst - pos) 0); (discriminate || lia).
  - destruct (Nat.eq_dec (length dst - pos) 0) as [Ez|Nz]; [destruct fuel; cbn [read_loop]; rewrite Ez; cbn; discriminate|].
    destruct (Hk i (length dst - pos)) as (k & Lk & Hj & Hend); [lia|].
    assert (skip : forall j, j <= k -> read_loop fuel o i dst pos = read_loop (fuel - j) o (i + j) dst pos).
    { induction j as [|j IHj]; intros Lj; [rewrite Nat.sub_0_r, Nat.add_0_r; reflexivity|]. rewrite IHj by lia. destruct (fuel - j) as [|f] eqn:Ef; [nia|].
      cbn [read_loop]. destruct (Nat.eqb_spec (length dst - pos) 0) as [Bad|_]; [contradiction|]. rewrite Hj by lia. replace (fuel - S j) with f by lia. rewrite Nat.add_succ_r. reflexivity. }
    rewrite (skip k (le_n k)). destruct (fuel - k) as [|f] eqn:Ef; [nia|]. cbn [read_loop]. destruct (Nat.eqb_spec (length dst - pos) 0) as [Bad|_]; [contradiction|].
    destruct Hend as [->|(d & Ed & Nd)]; [discriminate|]. rewrite Ed. destruct (proj1 (KO (i + k) (length dst - pos)) d Ed) as [Ld _]. rewrite put_ok by lia. cbn [bind].
    assert (0 < length d) by (destruct d; [contradiction|cbn; lia]).
    apply IH; [rewrite put_len by lia; lia|rewrite put_len by lia; lia|nia].
Qed.
Lemma urandom_returns linux o : kernel_ok o -> forall b, (forall i, exists k, k < b /\ (forall j, j < k -> os_open o (i + j) = OError true) /\ os_open o (i + k) <> OError true) ->
  (forall i n, 0 < n -> exists k, k <= b /\ (forall j, j < k -> os_read o (i + j) n = RError true) /\ (os_read o (i + k) n = RError false \/ exists d, os_read o (i + k) n = RData d /\ d <> [])) ->
  forall i dst fuel, b + length dst * S b <= fuel -> rand_urandom linux fuel o i dst <> OutOfFuel.
Proof.
  intros KO b Ho Hr i dst fuel Lf. unfold rand_urandom.
  assert (HO : open_loop fuel o i <> OutOfFuel).
  { destruct (Ho i) as (k & Lk & Hj & He). clear - Lk Hj He Lf. assert (Lk' : k < fuel) by nia. clear Lk Lf. revert i k Lk' Hj He. induction fuel as [|fuel IH]; intros i k Lk Hj He; [lia|]. cbn [open_loop].
    destruct k as [|k].
    - rewrite Nat.add_0_r in He. destruct (os_open o i) as [[|]|fd]; (discriminate || contradiction).
    - rewrite <- (Nat.add_0_r i) at 1. rewrite (Hj 0) by lia. apply (IH (S i) k); [lia|intros j Lj; rewrite Nat.add_succ_comm; apply Hj; lia|rewrite Nat.add_succ_comm; exact He]. }
  destruct (open_loop fuel o i) as [[ofd i1]|e|u|]; try discriminate; [|contradiction]. cbn [bind].
  destruct ofd as [fd|]; [|discriminate]. destruct (linux && negb (os_entropy o i1)); [discriminate|].
  set (i2 := if linux then S i1 else i1). pose proof (read_returns o KO b Hr (length dst) fuel i2 dst 0 ltac:(lia) (Nat.le_0_l _) ltac:(lia)) as R.
  destruct (read_loop fuel o i2 dst 0) as [[[r dst'] i']|e|u|]; try discriminate. contradiction.
Qed.
(** End of file is not handled: read returns 0 and the loop goes on. *)
Lemma urandom_endless linux o fd : (forall i, os_open o i = OFd fd) -> (forall i, os_entropy o i = true) -> (forall i n, os_read o i n = RData []) ->
  forall fuel i dst, dst <> [] -> rand_urandom linux fuel o i dst = OutOfFuel.
Proof.
  intros Eo Ee Er fuel i dst Nd. unfold rand_urandom. destruct fuel as [|fuel]; [reflexivity|]. cbn [open_loop]. rewrite Eo. cbn [bind]. rewrite Ee, andb_false_r.
  assert (G : forall f j, read_loop f o j dst 0 = OutOfFuel).
  { assert (Nz : length dst - 0 =? 0 = false) by (destruct dst; [contradiction|reflexivity]).
    induction f as [|f IH]; intros j; cbn [read_loop]; rewrite Nz; [reflexivity|]. rewrite Er. rewrite put_ok by (cbn; lia). cbn [bind length firstn app plus]. rewrite skipn_O. apply IH. }
  rewrite G. reflexivity.
Qed.

(** ** Key generation from the operating system *)
(** the random source of BanquetModel that this kernel is *)
Definition rng_of (I : instance) (o : os) : rng := fun i =>
  let n := if Nat.even i then key_size (i_aes I) else pt_size I in
  match os_getrandom o i n with RError _ => (false, []) | RData d => (length d =? n, d) end.
Lemma rng_of_bytes I o : kernel_ok o -> rng_bytes (rng_of I o).
Proof. intros KO i. unfold rng_of. destruct (os_getrandom o i _) as [b|d] eqn:E; [constructor|]. exact (proj2 (proj2 (KO _ _) d E)). Qed.
Lemma os_keygen_eq fuel I o : kernel_ok o -> os_keygen fuel I o = keygen fuel I (rng_of I o).
Proof.
  intros KO. unfold os_keygen, keygen.
  assert (G : forall fuel i key pt, Nat.even i = true -> length key = key_size (i_aes I) -> length pt = pt_size I -> os_keygen_loop fuel I o i key pt = keygen_loop fuel I (rng_of I o) i key pt).
  { clear fuel.
    assert (one : forall i buf, length buf = (if Nat.even i then key_size (i_aes I) else pt_size I) -> exists b, rand_bytes (rng_of I o) i buf = Ok b /\ length b = length buf /\ exists r, rand_getrandom o i buf = Ok (r, b)).
    { intros i buf L. unfold rand_bytes, rng_of, rand_getrandom, copy_into. rewrite <- L. destruct (os_getrandom o i (length buf)) as [x|d] eqn:E; cbn [snd].
      - exists buf. split; [reflexivity|]. split; [reflexivity|]. exists false. reflexivity.
      - destruct (proj2 (KO _ _) d E) as [Ld _]. rewrite (proj2 (Nat.leb_le _ _) Ld). exists (d ++ skipn (length d) buf). split; [reflexivity|].
        split; [rewrite app_length, skipn_length; lia|]. rewrite put_ok by (cbn; lia). eexists. reflexivity. }
    induction fuel as [|fuel IH]; intros i key pt Ev Lk Lp; [reflexivity|]. cbn [os_keygen_loop keygen_loop].
    destruct (one i key) as (k' & E1 & L1 & r1 & E2); [rewrite Ev; exact Lk|]. rewrite E1, E2. cbn [bind snd].
    destruct (one (i + 1) pt) as (p' & E3 & L3 & r2 & E4); [rewrite Nat.add_1_r, Nat.even_succ, <- Nat.negb_even, Ev; exact Lp|]. rewrite E3, E4. cbn [bind snd].
    destruct (aes_plain _ _ _) as [[ct|]|e|u|]; cbn [bind]; try reflexivity. apply IH; [rewrite <- Ev, Nat.even_add, Ev; reflexivity|congruence|congruence]. }
  apply G; [reflexivity|apply repeat_length|apply repeat_length].
Qed.

(** *** the variants over a system library *)
Lemma library_spec (l : library) i dst : library_ok l ->
  (exists dst', rand_framework l i dst = Ok (fst (l i (length dst)), dst') /\ length dst' = length dst /\
    dst' = snd (l i (length dst)) ++ skipn (length (snd (l i (length dst)))) dst /\ (fst (l i (length dst)) = true -> dst' = snd (l i (length dst)))) /\
  rand_windows l i dst = if (2 ^ 32 <=? N.of_nat (length dst))%N then Ok (false, dst) else rand_framework l i dst.
Proof.
  intros LO. split.
  - destruct (LO i (length dst)) as (L1 & _ & L2). unfold rand_framework. destruct (l i (length dst)) as [ok d]. cbn [fst snd] in *.
    unfold put. cbn [Nat.add firstn app]. rewrite (proj2 (Nat.leb_le _ _) L1). cbn [bind]. eexists. split; [reflexivity|].
    split; [rewrite app_length, skipn_length; lia|]. split; [reflexivity|]. intros T. rewrite (L2 T), skipn_all, app_nil_r. reflexivity.
  - unfold rand_windows, rand_framework. change (2 ^ 32)%N with 4294967296%N. unfold ULONG_MAX.
    destruct (4294967295 <? N.of_nat (length dst))%N eqn:E1; destruct (4294967296 <=? N.of_nat (length dst))%N eqn:E2; try reflexivity.
    + apply N.ltb_lt in E1. apply N.leb_gt in E2. lia.
    + apply N.ltb_ge in E1. apply N.leb_le in E2. lia.
    + rewrite N.mod_small by (apply N.leb_gt in E2; exact E2). rewrite Nat2N.id. reflexivity.
Qed.
