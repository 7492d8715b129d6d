(** Several threads that call the API at the same time.  All that calls share are the static members of GF2E and the lifting
    table (field.cpp:14, 137-140; no other object in /repo with static storage is written), so that a call is, for the other
    threads, a program that reads and writes these.

    Simplified: an access to a member is one step and steps interleave (sequential consistency); the std::function [reduce] is
    one word, the number of bytes of the field whose reduction it holds, 0 while it is empty. *)
From Coq Require Import Arith NArith ZArith List Bool Lia.
From Verif Require Import Prelude FieldModel Instances HashModel TreeModel BanquetModel History.
Import ListNotations.
Local Open Scope N_scope.

(** GF2E::byte_size, GF2E::modulus, GF2E::reduce (field.h:25-28) and lifting_lut[i] (field.cpp:14) *)
Inductive loc : Type := Lsize | Lmod | Lred | Llut (i : nat).
Definition loc_eqb (l l' : loc) : bool :=
  match l, l' with Lsize, Lsize | Lmod, Lmod | Lred, Lred => true | Llut i, Llut j => Nat.eqb i j | _, _ => false end.
Definition mem : Type := loc -> N.
Definition store (m : mem) (l : loc) (v : N) : mem := fun l' => if loc_eqb l' l then v else m l'.

(** a program, seen from outside: it ends with a result, reads a location and goes on, or writes one *)
Inductive prog (A : Type) : Type :=
| Done (a : A)
| Rd (l : loc) (k : N -> prog A)
| Wr (l : loc) (v : N) (p : prog A).
Arguments Done {A} a.
Arguments Rd {A} l k.
Arguments Wr {A} l v p.
Fixpoint pbind {A B} (p : prog A) (f : A -> prog B) : prog B :=
  match p with Done a => f a | Rd l k => Rd l (fun v => pbind (k v) f) | Wr l v q => Wr l v (pbind q f) end.

(** The functions behind [reduce], field.cpp:35-99 *)
Definition reduce_of (v : N) : option (N -> N) :=
  if v =? 2 then Some reduce_GF2_16 else if v =? 4 then Some reduce_GF2_32 else if v =? 5 then Some reduce_GF2_40 else if v =? 6 then Some reduce_GF2_48 else None.

(** init_lifting_lut, field.cpp:16-29; [rest]: what the caller does next *)
Fixpoint lut_entries {A} (todo : nat) (idx start : nat) (pow : N) (rest : prog (res A)) : prog (res A) :=
  match todo with
  | O => rest
  | S n => Rd (Llut idx) (fun v => Wr (Llut (start + idx)) (gadd v pow) (lut_entries n (S idx) start pow rest))
  end.
Fixpoint lut_bits {A} (todo : nat) (bit : nat) (pow generator : N) (rest : prog (res A)) : prog (res A) :=
  match todo with
  | O => rest
  | S n =>
    lut_entries (2 ^ bit) 0 (2 ^ bit) pow
      (Rd Lred (fun v => match reduce_of v with
        | None => Done (Throw EBadFunctionCall)
        | Some red => lut_bits n (S bit) (gmul_with red pow generator) generator rest
        end))
  end.
Definition init_lut_prog {A} (generator : N) (rest : prog (res A)) : prog (res A) :=
  Wr (Llut 0) 0 (Wr (Llut 1) 1 (lut_bits 7 1 generator generator rest)).
(** GF2E::init_extension_field, field.cpp:188-312 *)
Definition init_case {A} (size : nat) (modulus generator : N) (rest : prog (res A)) : prog (res A) :=
  Wr Lmod modulus (Wr Lred (N.of_nat size) (Wr Lsize (N.of_nat size) (init_lut_prog generator rest))).
Definition init_prog {A} (lambda : nat) (rest : prog (res A)) : prog (res A) :=
  match lambda with
  | 2%nat => init_case 2 (set_coeffs [16; 5; 3; 1; 0]) (set_coeffs [14; 8; 7; 6; 3; 2; 0]) rest
  | 4%nat => init_case 4 (set_coeffs [32; 7; 3; 2; 0]) (set_coeffs [30; 23; 21; 18; 14; 13; 11; 9; 7; 6; 5; 4; 3; 1]) rest
  | 5%nat => init_case 5 (set_coeffs [40; 5; 4; 3; 0]) (set_coeffs [31; 30; 27; 25; 22; 21; 20; 18; 15; 9; 6; 4; 2]) rest
  | 6%nat => init_case 6 (set_coeffs [48; 5; 3; 2; 0]) (set_coeffs [45; 43; 40; 37; 36; 35; 34; 33; 31; 30; 29; 28; 24; 21; 20; 19; 16; 14; 13; 11; 10; 7; 3; 2]) rest
  | _ => Done (Throw ELambda)
  end.

(** What a call returns *)
Inductive answer : Type :=
| AKeys (kp : keypair) | ASignature (sig : signature) | AAccepted (b : bool) | ABytes (b : bytes) | AInstance (J : instance).
Definition amap {A B} (f : A -> B) (r : res A) : res B := match r with Ok a => Ok (f a) | Throw e => Throw e | UB u => UB u | OutOfFuel => OutOfFuel end.
(** a call made in a process whose static state is st, and nobody else uses it (the models of BanquetModel) *)
Definition answer_of (H : oracle) (st : fstate) (x : call) : res answer :=
  match x with
  | CKeygen fuel J r => amap AKeys (keygen fuel J r)
  | CSign fuel garb J kp msg => amap ASignature (snd (sign H fuel garb st J kp msg))
  | CVerify fuel garb J pk sig msg => amap AAccepted (snd (verify H fuel garb st J pk sig msg))
  | CSerialize J sig => amap ABytes (serialize st J sig)
  | CDeserialize fuel garb J ser => amap ASignature (deserialize H fuel garb st J ser)
  | CInstance p => amap AInstance (banquet_instance_get p)
  end.
(** calls made one after the other *)
Fixpoint answers (H : oracle) (st : fstate) (xs : list call) : list (res answer) :=
  match xs with [] => [] | x :: xs => answer_of H st x :: answers H (step H st x) xs end.
(** the part of the call that follows init_extension_field (banquet.cpp:296-775, 785-1194), or the whole call if it does not
    call that; [None] for sign and verify cannot occur *)
Definition rest_of (H : oracle) (st : fstate) (x : call) : res answer :=
  match x with
  | CSign fuel garb J kp msg => match st with Some c => amap ASignature (sign_body H J c fuel garb kp msg) | None => Throw EBadFunctionCall end
  | CVerify fuel garb J pk sig msg => match st with Some c => amap AAccepted (verify_body H J c fuel garb pk sig msg) | None => Throw EBadFunctionCall end
  | _ => answer_of H st x
  end.

(** the static members when the state is st *)
Definition mem_of (st : fstate) : mem := fun l =>
  match st with
  | None => 0
  | Some c => match l with Lsize | Lred => N.of_nat (fc_byte_size c) | Lmod => fc_modulus c | Llut i => nth i (fc_lut c) 0 end
  end.
Definition reachable (st : fstate) : Prop := match st with None => True | Some c => exists lam, init_extension_field lam = Ok c end.
(** the result of a program that nobody interrupts *)
Fixpoint run {A} (p : prog A) (m : mem) : A :=
  match p with Done a => a | Rd l k => run (k (m l)) m | Wr l v q => run q (store m l v) end.
(** no path writes, and the lifting table is read at its 256 indices only *)
Definition valid (l : loc) : Prop := match l with Llut i => (i < 256)%nat | _ => True end.
Fixpoint read_only {A} (p : prog A) : Prop := match p with Done _ => True | Rd l k => valid l /\ forall v, read_only (k v) | Wr _ _ _ => False end.

(** [impl x] is any program for the rest of call x: we do not fix in which order the code reads the static members, only that,
    uninterrupted, it computes what the model says.  keygen and banquet_instance_get do not touch the static members. *)
Definition implements (H : oracle) (impl : call -> prog (res answer)) : Prop :=
  forall x, match x with
  | CKeygen _ _ _ | CInstance _ => impl x = Done (answer_of H None x)
  | CSign _ _ _ _ _ | CVerify _ _ _ _ _ _ => read_only (impl x) /\ forall c, reachable (Some c) -> run (impl x) (mem_of (Some c)) = rest_of H (Some c) x
  | _ => read_only (impl x) /\ forall st, reachable st -> run (impl x) (mem_of st) = rest_of H st x
  end.
Definition call_prog (impl : call -> prog (res answer)) (x : call) : prog (res answer) :=
  match x with CSign _ _ J _ _ | CVerify _ _ J _ _ _ => init_prog (lambda J) (impl x) | _ => impl x end.
Fixpoint thread (impl : call -> prog (res answer)) (xs : list call) : prog (list (res answer)) :=
  match xs with [] => Done [] | x :: xs => pbind (call_prog impl x) (fun r => pbind (thread impl xs) (fun rs => Done (r :: rs))) end.

(** One step of thread t; a schedule is the list of the threads that make a step. *)
Definition tstep {A} (t : nat) (s : list (prog A) * mem) : list (prog A) * mem :=
  match nth_error (fst s) t with
  | Some (Rd l k) => (upd (fst s) t (k (snd s l)), snd s)
  | Some (Wr l v p) => (upd (fst s) t p, store (snd s) l v)
  | _ => s
  end.
Definition exec {A} (sched : list nat) (s : list (prog A) * mem) : list (prog A) * mem := fold_left (fun s t => tstep t s) sched s.
(** Two threads are about to access one location and one of them writes: a data race, which C++ leaves undefined. *)
Definition next_access {A} (p : prog A) : option (loc * bool) := match p with Done _ => None | Rd l _ => Some (l, false) | Wr l _ _ => Some (l, true) end.
Definition race {A} (ps : list (prog A)) : Prop :=
  exists t u p q l w w', t <> u /\ nth_error ps t = Some p /\ nth_error ps u = Some q /\ next_access p = Some (l, w) /\ next_access q = Some (l, w') /\ (w || w' = true)%bool.
