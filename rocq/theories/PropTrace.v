(** C85: the file descriptors of rand_bytes, where it reads /dev/urandom.  Specification: TraceSpec. *)
From Coq Require Import Arith NArith ZArith List Bool Lia.
From Verif Require Import Prelude RandModel TraceSpec TraceModel TraceFacts.
Import ListNotations.

(** However the system answers, and however far the call has come: at most one descriptor is open, only an open one is used or
    closed, and when the call returns none is left open. *)
Theorem C85_descriptors : forall linux cloexec flags fuel o i dst t r, urandom_calls linux cloexec flags fuel o i dst = (t, r) ->
  used_well t /\ forall x, r = Ok x -> open_after t = [].
Proof. intros linux cloexec flags fuel o i dst t r E. destruct (calls_ok _ _ _ _ _ _ _ _ _ E) as (A & B & _). split; [exact A|]. intros x X. apply B. exists x. exact X. Qed.
Print Assumptions C85_descriptors.
(** Every read asks for the rest of the buffer: nothing behind its end. *)
Theorem C85_reads : forall linux cloexec flags fuel o i dst t r, urandom_calls linux cloexec flags fuel o i dst = (t, r) ->
  forall fd pos len, List.In (SRead fd pos len) t -> pos + len = length dst.
Proof. intros linux cloexec flags fuel o i dst t r E fd pos len H. destruct (calls_ok _ _ _ _ _ _ _ _ _ E) as (_ & _ & C & _). rewrite Forall_forall in C. exact (C _ H). Qed.
Print Assumptions C85_reads.
(** Where the system has no O_CLOEXEC, FD_CLOEXEC (bit 0 of the flags) is set by the next calls after open, before anything is read. *)
Theorem C85_close_on_exec : forall linux flags fuel o i dst t r, urandom_calls linux false flags fuel o i dst = (t, r) ->
  forall before fd rest, t = before ++ SOpen (OFd fd) :: rest -> exists v rest', rest = SGetFlags fd :: SSetFlags fd v :: rest' /\ Z.testbit v 0 = true.
Proof. intros linux flags fuel o i dst t r E. destruct (calls_ok _ _ _ _ _ _ _ _ _ E) as (_ & _ & _ & _ & H). exact (H eq_refl). Qed.
Print Assumptions C85_close_on_exec.
(** What it returns and stores is what C57 is about. *)
Theorem C85_result : forall linux cloexec flags fuel o i dst, snd (urandom_calls linux cloexec flags fuel o i dst) = (do (x, _) <- rand_urandom linux fuel o i dst; Ok x).
Proof. intros linux cloexec flags fuel o i dst. destruct (urandom_calls linux cloexec flags fuel o i dst) as [t r] eqn:E. destruct (calls_ok _ _ _ _ _ _ _ _ _ E) as (_ & _ & _ & H & _). symmetry. exact H. Qed.
Print Assumptions C85_result.

(** An interrupted open, no O_CLOEXEC, two bytes, an interrupted read, one byte, an error *)
Example C85_case : urandom_calls true false 4 9
    (mkOs (fun _ _ => RError false) (fun i => if i =? 0 then OError true else OFd 3) (fun _ => true) (fun i n => nth (i - 3) [RData [7; 8]; RError true; RData [9]; RError false]%N (RError false))) 0 (repeat 0%N 4) =
  ([SOpen (OError true); SOpen (OFd 3); SGetFlags 3; SSetFlags 3 5; SEntropy 3; SRead 3 0 4; SRead 3 2 2; SRead 3 2 2; SRead 3 3 1; SClose 3], Ok (false, [7; 8; 9; 0]%N, 7)).
Proof. reflexivity. Qed.
(** and the order of calls matters: a descriptor used after it was closed is not used well, one that is not closed stays open *)
Example C85_not_any : ~ used_well [SOpen (OFd 3); SClose 3; SRead 3 0 1] /\ open_after [SOpen (OFd 3); SRead 3 0 1] = [3%Z].
Proof. split; [|reflexivity]. intros H. destruct (H [SOpen (OFd 3); SClose 3] [SRead 3 0 1] eq_refl) as [_ X]. exact (X _ _ eq_refl 3%Z eq_refl). Qed.
