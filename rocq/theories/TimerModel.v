(** Model of /repo/tools/bench_timing.cpp: the timer of the benchmark programs, with the system calls it makes (TraceSpec). *)
From Coq Require Import Arith NArith ZArith List Bool.
From Verif Require Import Prelude RandModel TraceSpec.
Import ListNotations.

(** The machine.  Whether the parts of the file for 64-bit ARM and for Linux are compiled in (None: not), whether setting up the
    counter of the processor raises SIGILL or sigaction fails (Some false), what syscall(__NR_perf_event_open) returns, and what
    the i-th reading of each clock gives; a read from the descriptor that does not return 8 bytes is None. *)
Record machine : Type := mkMachine {
  m_armv8 : option bool;
  m_perf : option Z;
  m_cycles : nat -> N;
  m_counter : nat -> option N;
  m_clock : nat -> Z;          (* clock(), -1 if there is none *)
  m_per_second : Z }.          (* CLOCKS_PER_SEC *)
Inductive source : Type := Armv8 | Perf | Clock.
(** struct timing_context_s, bench_timing.h:40-47: which functions read and close are, and data.fd *)
Record timer : Type := mkTimer { t_source : source; t_fd : Z }.
Definition INT_MAX : Z := 2147483647.
Definition UINT64_MAX : N := 18446744073709551615.
(** perf_event_open, bench_timing.cpp:174-183 *)
Definition perf_event_open (r : Z) : Z := if (INT_MAX <? r)%Z then (-1)%Z else r.
(** timing_init, bench_timing.cpp:225-237, with armv8_init 110-149, perf_init 185-209 and clock_init 219-223; fd0: what data.fd
    holds before.  The result of a system call that opens a descriptor is recorded as of open. *)
Definition timing_init (m : machine) (fd0 : Z) : bool * timer * list syscall :=
  match m_armv8 m with
  | Some true => (true, mkTimer Armv8 fd0, [])
  | _ =>
    match m_perf m with
    | Some r =>
      let fd := perf_event_open r in
      let call := SOpen (if (r =? -1)%Z then OError false else OFd r) in
      if (fd =? -1)%Z then (true, mkTimer Clock fd0, [call]) else (true, mkTimer Perf fd, [call])
    | None => (true, mkTimer Clock fd0, [])
    end
  end.
(** timing_read, bench_timing.h:51-53: armv8_read 93-98, perf_read 165-172, clock_read 214-217, in the arithmetic of uint64_t; the
    product of clock() is taken modulo 2^64 (CLOCKS_PER_SEC is 1000000 on POSIX systems, where it cannot overflow) *)
Definition timing_read (m : machine) (i : nat) (t : timer) : N * list syscall :=
  match t_source t with
  | Armv8 => (m_cycles m i, [])
  | Perf => (match m_counter m i with Some v => v | None => UINT64_MAX end, [SRead (t_fd t) 0 8])
  | Clock => (Z.to_N ((m_clock m i * (1000000 / m_per_second m)) mod 2 ^ 64)%Z, [])
  end.
(** timing_close, bench_timing.h:55: armv8_close 73-91 and clock_close 212 (nothing on descriptors), perf_close 158-163 *)
Definition timing_close (t : timer) : timer * list syscall :=
  match t_source t with
  | Perf => if (t_fd t =? -1)%Z then (t, []) else (mkTimer Perf (-1), [SClose (t_fd t)])
  | _ => (t, [])
  end.
(** a program that sets the timer up, reads it n times and closes it k times: the readings and the system calls *)
Fixpoint reads (m : machine) (i n : nat) (t : timer) : list N * list syscall :=
  match n with O => ([], []) | S n' => let (v, c) := timing_read m i t in let (vs, cs) := reads m (S i) n' t in (v :: vs, c ++ cs) end.
Fixpoint closes (k : nat) (t : timer) : list syscall :=
  match k with O => [] | S k' => let (t', c) := timing_close t in c ++ closes k' t' end.
Definition timed (m : machine) (fd0 : Z) (n k : nat) : bool * list N * list syscall :=
  let '(ok, t, c) := timing_init m fd0 in
  let (vs, cr) := reads m 0 n t in (ok, vs, c ++ cr ++ closes k t).
