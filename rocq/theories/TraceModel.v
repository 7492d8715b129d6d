(** Model of rand_bytes with /dev/urandom, /repo/randomness.c:69-108, once more (see RandModel), with every system call it makes. *)
From Coq Require Import Arith NArith ZArith List Bool.
From Verif Require Import Prelude RandModel TraceSpec.
Import ListNotations.

(** while ((fd = open(...)) == -1), lines 71-77; the calls made so far are there even if the loop is still running *)
Fixpoint open_calls (fuel : nat) (o : os) (i : nat) : list syscall * res (option Z * nat) :=
  match fuel with
  | O => ([], OutOfFuel)
  | S f => match os_open o i with
    | OFd fd => ([SOpen (OFd fd)], Ok (Some fd, S i))
    | OError eintr => if eintr then let (t, r) := open_calls f o (S i) in (SOpen (OError eintr) :: t, r) else ([SOpen (OError eintr)], Ok (None, S i))
    end
  end.
(** while (len), lines 91-104, and close(fd); return 1, lines 106-107 *)
Fixpoint read_calls (fuel : nat) (o : os) (fd : Z) (i : nat) (dst : bytes) (pos : nat) : list syscall * res (bool * bytes * nat) :=
  if length dst - pos =? 0 then ([SClose fd], Ok (true, dst, i)) else
  match fuel with
  | O => ([], OutOfFuel)
  | S f =>
    let call := SRead fd pos (length dst - pos) in
    match os_read o i (length dst - pos) with
    | RError again => if again then let (t, r) := read_calls f o fd (S i) dst pos in (call :: t, r) else ([call; SClose fd], Ok (false, dst, S i))
    | RData d => match put dst pos d with
      | Ok dst' => let (t, r) := read_calls f o fd (S i) dst' (pos + length d) in (call :: t, r)
      | Throw e => ([call], Throw e) | UB u => ([call], UB u) | OutOfFuel => ([call], OutOfFuel)
      end
    end
  end.
(** rand_bytes, lines 69-108.  [linux]: the ioctl of lines 82-89 is compiled in; [cloexec]: the system has O_CLOEXEC, otherwise the
    fcntl calls of lines 78-80 are compiled in; flags: what fcntl(fd, F_GETFD) answers.  FD_CLOEXEC is 1. *)
Definition urandom_calls (linux cloexec : bool) (flags : Z) (fuel : nat) (o : os) (i : nat) (dst : bytes) : list syscall * res (bool * bytes * nat) :=
  let (t, r) := open_calls fuel o i in
  match r with
  | Ok (None, i) => (t, Ok (false, dst, i))
  | Ok (Some fd, i) =>
    let t := t ++ (if cloexec then [] else [SGetFlags fd; SSetFlags fd (Z.lor flags 1)]) in
    if linux
    then if os_entropy o i then let (t', r) := read_calls fuel o fd (S i) dst 0 in (t ++ SEntropy fd :: t', r) else (t ++ [SEntropy fd; SClose fd], Ok (false, dst, S i))
    else let (t', r) := read_calls fuel o fd i dst 0 in (t ++ t', r)
  | Throw e => (t, Throw e) | UB u => (t, UB u) | OutOfFuel => (t, OutOfFuel)
  end.
