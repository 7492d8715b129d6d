(** Model of /repo/randomness.c: the two Linux variants of rand_bytes (getrandom, and /dev/urandom, the latter also for macOS
    without the Security framework), the two that call a system library (macOS with the framework, Windows), and banquet_keygen
    on top of the first. *)
From Coq Require Import Arith NArith ZArith List Bool Lia.
From Verif Require Import Prelude Instances AesModel BanquetModel.
Import ListNotations.

(** The operating system: what the i-th system call answers.  A read-like call reports an error (with errno EAGAIN or EINTR, or
    another one) or the bytes it stored at the address it was given, their number being its return value. *)
Inductive reply : Type := RError (again : bool) | RData (d : bytes).
Inductive opened : Type := OError (eintr : bool) | OFd (fd : Z).
Record os : Type := mkOs {
  os_getrandom : nat -> nat -> reply;   (* getrandom(dst, len, GRND_NONBLOCK) *)
  os_open : nat -> opened;              (* open("/dev/urandom", ...) *)
  os_entropy : nat -> bool;             (* ioctl(fd, RNDGETENTCNT, &cnt) != -1 *)
  os_read : nat -> nat -> reply }.      (* read(fd, dst, len) *)

(** the kernel stores d at dst + pos *)
Definition put (dst : bytes) (pos : nat) (d : bytes) : res bytes :=
  if pos + length d <=? length dst then Ok (firstn pos dst ++ d ++ skipn (pos + length d) dst) else UB OutOfBounds.

(** rand_bytes, randomness.c:34-40: the return value and the buffer *)
Definition rand_getrandom (o : os) (i : nat) (dst : bytes) : res (bool * bytes) :=
  match os_getrandom o i (length dst) with
  | RError _ => Ok (false, dst)
  | RData d => do dst' <- put dst 0 d; Ok (length d =? length dst, dst')
  end.

(** rand_bytes, randomness.c:69-108.  [linux]: the ioctl of lines 82-89 is compiled in; the fcntl of lines 78-80 (only without
    O_CLOEXEC) is left out.  The result also says how many system calls were made, and lists opened and closed descriptors. *)
Inductive event : Type := Opened (fd : Z) | Closed (fd : Z).
Fixpoint open_loop (fuel : nat) (o : os) (i : nat) : res (option Z * nat) :=
  match fuel with
  | O => OutOfFuel
  | S f => match os_open o i with
    | OFd fd => Ok (Some fd, S i)
    | OError eintr => if eintr then open_loop f o (S i) else Ok (None, S i)
    end
  end.
Fixpoint read_loop (fuel : nat) (o : os) (i : nat) (dst : bytes) (pos : nat) : res (bool * bytes * nat) :=
  if length dst - pos =? 0 then Ok (true, dst, i) else
  match fuel with
  | O => OutOfFuel
  | S f => match os_read o i (length dst - pos) with
    | RError again => if again then read_loop f o (S i) dst pos else Ok (false, dst, S i)
    | RData d => do dst' <- put dst pos d; read_loop f o (S i) dst' (pos + length d)
    end
  end.
Definition rand_urandom (linux : bool) (fuel : nat) (o : os) (i : nat) (dst : bytes) : res (bool * bytes * nat * list event) :=
  do (ofd, i) <- open_loop fuel o i;
  match ofd with
  | None => Ok (false, dst, i, [])
  | Some fd =>
    if linux && negb (os_entropy o i) then Ok (false, dst, S i, [Opened fd; Closed fd]) else
    let i := if linux then S i else i in
    do (x, i) <- read_loop fuel o i dst 0;
    Ok (x, i, [Opened fd; Closed fd])
  end.

(** The library functions SecRandomCopyBytes and BCryptGenRandom: whether call i with this length reports success, and the bytes
    it stored. *)
Definition library := nat -> nat -> bool * bytes.
(** rand_bytes, randomness.c:41-49 *)
Definition rand_framework (l : library) (i : nat) (dst : bytes) : res (bool * bytes) :=
  let '(ok, d) := l i (length dst) in do dst' <- put dst 0 d; Ok (ok, dst').
(** rand_bytes, randomness.c:109-121; ULONG has 32 bits on Windows, and the cast in the call truncates *)
Definition ULONG_MAX : N := 4294967295%N.
Definition rand_windows (l : library) (i : nat) (dst : bytes) : res (bool * bytes) :=
  if (ULONG_MAX <? N.of_nat (length dst))%N then Ok (false, dst) else
  let '(ok, d) := l i (N.to_nat (N.of_nat (length dst) mod (ULONG_MAX + 1))) in do dst' <- put dst 0 d; Ok (ok, dst').

(** banquet_keygen, banquet.cpp:260-288, with rand_bytes of randomness.c:34-40 *)
Fixpoint os_keygen_loop (fuel : nat) (I : instance) (o : os) (i : nat) (key pt : bytes) : res keypair :=
  match fuel with
  | O => OutOfFuel
  | S f =>
    do x <- rand_getrandom o i key; let key := snd x in
    do y <- rand_getrandom o (i + 1) pt; let pt := snd y in
    do r <- aes_plain (key_size (i_aes I)) key pt;
    match r with
    | Some ct => Ok (key, pt ++ ct)
    | None => os_keygen_loop f I o (i + 2) key pt
    end
  end.
Definition os_keygen (fuel : nat) (I : instance) (o : os) : res keypair :=
  os_keygen_loop fuel I o 0 (zeros (key_size (i_aes I))) (zeros (pt_size I)).
