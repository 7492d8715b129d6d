(** Specification for C85: which file descriptors are open after a sequence of system calls.  Nothing here models a specific
    function of /repo. *)
From Coq Require Import Arith NArith ZArith List.
From Verif Require Import RandModel.
Import ListNotations.

(** a system call with its arguments; of open, what it answers *)
Inductive syscall : Type :=
| SOpen (r : opened)
| SGetFlags (fd : Z)            (* fcntl(fd, F_GETFD) *)
| SSetFlags (fd : Z) (v : Z)    (* fcntl(fd, F_SETFD, v) *)
| SEntropy (fd : Z)             (* ioctl(fd, RNDGETENTCNT, &cnt) *)
| SRead (fd : Z) (pos len : nat) (* read(fd, dst + pos, len) *)
| SClose (fd : Z).
(** the descriptor the process uses *)
Definition uses (c : syscall) : option Z :=
  match c with SOpen _ => None | SGetFlags fd | SSetFlags fd _ | SEntropy fd | SRead fd _ _ | SClose fd => Some fd end.
(** the open descriptors afterwards *)
Definition after (fds : list Z) (c : syscall) : list Z :=
  match c with SOpen (OFd fd) => fd :: fds | SClose fd => remove Z.eq_dec fd fds | _ => fds end.
Definition open_after (t : list syscall) : list Z := fold_left after t [].
(** at every point of the sequence: one descriptor open at most, and only open ones used *)
Definition used_well (t : list syscall) : Prop :=
  forall before rest, t = before ++ rest -> length (open_after before) <= 1 /\ forall c rest', rest = c :: rest' -> forall fd, uses c = Some fd -> List.In fd (open_after before).
