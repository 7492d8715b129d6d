(** Model of the benchmark programs /repo/tools/bench.cpp and /repo/tools/bench_free.cpp with their argument parser
    /repo/tools/bench_utils.cpp (the variant for compilers other than Microsoft's).  Times are left out (bench_timing.cpp: whether
    the timer could be set up is a parameter); what is printed is kept, as a list of lines of both output streams. *)
From Coq Require Import String Ascii Arith NArith ZArith List Bool.
From Verif Require Import Prelude FieldModel Instances HashModel BanquetModel.
Import ListNotations.
Open Scope list_scope.

(** a C string: the character codes before the terminating zero *)
Definition cstr := list N.
Definition text (s : string) : cstr := map N_of_ascii (list_ascii_of_string s).
Definition same (a b : cstr) : bool := if list_eq_dec N.eq_dec a b then true else false.

(** strtol(arg, NULL, 10), called in bench_utils.cpp:41, as C11 7.22.1.4 and glibc define it on a machine with 64-bit long: white
    space, a sign, as many digits as there are; saturation with ERANGE.  Without a digit the value is 0; whether errno is set to
    EINVAL then is up to the library ([einval]). *)
Inductive errno : Set := NoError | ERange | EInval.
Definition is_space (c : N) : bool := ((9 <=? c) && (c <=? 13) || (c =? 32))%N.
Definition is_digit (c : N) : bool := ((48 <=? c) && (c <=? 57))%N.
Fixpoint skip_space (s : cstr) : cstr := match s with c :: s' => if is_space c then skip_space s' else s | [] => [] end.
Fixpoint digits (acc : Z) (s : cstr) : Z := match s with c :: s' => if is_digit c then digits (acc * 10 + (Z.of_N c - 48)) s' else acc | [] => acc end.
Definition LONG_MAX : Z := 2 ^ 63 - 1.
Definition LONG_MIN : Z := - 2 ^ 63.
Definition strtol (einval : bool) (s : cstr) : Z * errno :=
  let s := skip_space s in
  let (neg, s) := match s with c :: s' => if (c =? 45)%N then (true, s') else if (c =? 43)%N then (false, s') else (false, s) | [] => (false, s) end in
  match s with
  | c :: _ =>
    if is_digit c then
      let v := if neg then (- digits 0 s)%Z else digits 0 s in
      if (LONG_MAX <? v)%Z then (LONG_MAX, ERange) else if (v <? LONG_MIN)%Z then (LONG_MIN, ERange) else (v, NoError)
    else (0%Z, if einval then EInval else NoError)
  | [] => (0%Z, if einval then EInval else NoError)
  end.

(** parse_long, bench_utils.cpp:39-50 *)
Definition parse_long (einval : bool) (arg : cstr) : option Z :=
  let (v, e) := strtol einval arg in
  if (match e with ERange => (v =? LONG_MAX) || (v =? LONG_MIN) | _ => false end || match e with NoError => false | _ => v =? 0 end)%Z
  then None else Some v.
(** parse_uint32_t, bench_utils.cpp:52-64 *)
Definition parse_uint32 (einval : bool) (arg : cstr) : option N :=
  match parse_long einval arg with
  | None => None
  | Some v => if ((v <? 0) || (4294967295 <? v))%Z then None else Some (Z.to_N v)
  end.

(** What getopt_long returns in the loops bench_utils.cpp:93-113 and 169-189 (short options "i:l:", one long option "iter", all with an argument), as
    glibc does it: the options in order of occurrence, up to the first unknown option or missing argument, and the operands left
    from optind on.  Operands between options are moved behind them, unless POSIXLY_CORRECT is set ([posix]), when the first
    operand ends the scan; "--" ends it in any case.  A long option may be abbreviated. *)
Inductive opt : Type := OptI (arg : cstr) | OptOther.
Definition split_eq (s : cstr) : cstr * option cstr :=
  (fix go s := match s with [] => ([], None) | c :: s' => if (c =? 61)%N then ([], Some s') else let (n, v) := go s' in (c :: n, v) end) s.
Fixpoint is_prefix (a b : cstr) : bool := match a, b with [], _ => true | x :: a', y :: b' => (x =? y)%N && is_prefix a' b' | _ :: _, [] => false end.
Fixpoint getopt (posix : bool) (args : list cstr) : list opt * list cstr :=
  match args with
  | [] => ([], [])
  | a :: rest =>
    let with_arg (mk : cstr -> opt) (own : option cstr) :=
      match own with
      | Some v => let (os, l) := getopt posix rest in (mk v :: os, l)
      | None => match rest with [] => ([OptOther], []) | v :: rest' => let (os, l) := getopt posix rest' in (mk v :: os, l) end
      end in
    match a with
    | c1 :: c2 :: s =>
      if (c1 =? 45)%N then
        if (c2 =? 45)%N then
          match s with
          | [] => ([], rest)
          | _ => let (name, v) := split_eq s in if is_prefix name (text "iter") then with_arg OptI v else ([OptOther], [])
          end
        else
          let own := match s with [] => None | _ => Some s end in
          if (c2 =? 105)%N then with_arg OptI own else if (c2 =? 108)%N then with_arg (fun _ => OptOther) own else ([OptOther], [])
      else if posix then ([], args) else let (os, l) := getopt posix rest in (os, a :: l)
    | _ => if posix then ([], args) else let (os, l) := getopt posix rest in (os, a :: l)
    end
  end.

(** lines the programs print *)
Inductive line : Type :=
| LUsage                                        (* "usage: ..." *)
| LNotNumber                                    (* "Failed to parse argument as positive base-10 number!" *)
| LInvalidSet                                   (* "Invalid parameter set selected!" *)
| LTimer                                        (* "Failed to initialize timing functionality." *)
| LKappa                                        (* "invalid kappa, choose 16,24,32" *)
| LSplit                                        (* "invalid m1 and m2 for chosen seclvl" *)
| LInstance (n tau lam a b ks : nat)            (* "Instance: N=..., tau=..., lambda=..., m1=..., m2=..., AES-Keylen=Seclvl=..." *)
| LNotVerified                                  (* "failed to verify signature" *)
| LHeader                                       (* "keygen,sign,verify,size,serialize,deserialize" *)
| LRow (size : nat).                            (* a row of the table, of which only the size is kept *)

(** the loops bench_utils.cpp:98-113 and 174-189: the iterations chosen, or the message of the return *)
Fixpoint scan (einval : bool) (os : list opt) (iter : N) : line + N :=
  match os with
  | [] => inr iter
  | OptI arg :: os' => match parse_uint32 einval arg with None => inl LNotNumber | Some v => scan einval os' v end
  | OptOther :: _ => inl LUsage
  end.
(** parse_args, bench_utils.cpp:82-152: a message and false, or the parameter set and the number of iterations.  argv is the
    program's name and its arguments. *)
Definition parse_args (posix einval : bool) (args : list cstr) : line + N * N :=
  if length args + 1 <=? 1 then inl LUsage else
  let (os, operands) := getopt posix args in
  match scan einval os 10 with
  | inl l => inl l
  | inr iter =>
    match operands with
    | [a] =>
      match parse_uint32 einval a with
      | None => inl LNotNumber
      | Some p => if ((p <=? 0) || (24 <=? p))%N then inl LInvalidSet else inr (p, iter)
      end
    | _ => inl LUsage
    end
  end.

(** bench_options_free_t, bench_utils.h:42-50 *)
Record free_options : Type := mkOptions { o_iter : N; o_kappa : N; o_parties : N; o_tau : N; o_m1 : N; o_m2 : N; o_lambda : N }.
(** one argument, bench_utils.cpp:191-196 and five times more.  argv[argc] is a null pointer and there is nothing behind it; strtol
    may not be given a null pointer. *)
Definition next_number (einval : bool) (operands : list cstr) : res (option N * list cstr) :=
  match operands with [] => UB OutOfBounds | a :: l => Ok (parse_uint32 einval a, l) end.
Fixpoint next_numbers (einval : bool) (k : nat) (operands : list cstr) : res (option (list N)) :=
  match k with
  | O => Ok (Some [])
  | S k' =>
    do (v, l) <- next_number einval operands;
    match v with
    | None => Ok None
    | Some v => do vs <- next_numbers einval k' l; Ok (match vs with None => None | Some vs => Some (v :: vs) end)
    end
  end.
(** parse_args_free, bench_utils.cpp:154-228 *)
Definition parse_args_free (posix einval : bool) (args : list cstr) : res (line + free_options) :=
  if length args + 1 <=? 6 then Ok (inl LUsage) else
  let (os, operands) := getopt posix args in
  match scan einval os 10 with
  | inl l => Ok (inl l)
  | inr iter =>
    do vs <- next_numbers einval 6 operands;
    Ok (match vs with Some [kappa; n; tau; a; b; lam] => inr (mkOptions iter kappa n tau a b lam) | _ => inl LNotNumber end)
  end.

(** What the outside contributes to iteration number i: the random source, indeterminate bytes; and the bounds of the model's
    loops. *)
Record surroundings : Type := mkEnv { e_rng : nat -> rng; e_garb : nat -> nat -> nat -> N; e_kf : nat; e_fuel : nat }.
(** the message, bench.cpp:58-60, bench_free.cpp:58-60 *)
Definition bench_msg : bytes := map N.of_nat (seq 1 32).
(** the body of the loop, bench.cpp:75-109 and bench_free.cpp:99-133: the state left, the size and the result of verification *)
Definition iteration (H : oracle) (E : surroundings) (I : instance) (i : nat) (st : fstate) : res (fstate * nat * bool) :=
  do kp <- keygen (e_kf E) I (e_rng E i);
  let (st, s) := sign H (e_fuel E) (e_garb E i 0) st I kp bench_msg in
  do sig <- s;
  do ser <- serialize st I sig;
  do sig' <- deserialize H (e_fuel E) (e_garb E i 1) st I ser;
  let (st, v) := verify H (e_fuel E) (e_garb E i 2) st I (snd kp) sig' bench_msg in
  do ok <- v;
  Ok (st, length ser, ok).
(** the loop: sizes, and one line on the error stream per signature that did not verify *)
Fixpoint iterations (H : oracle) (E : surroundings) (I : instance) (n i : nat) (st : fstate) : res (list nat * list line) :=
  match n with
  | O => Ok ([], [])
  | S n' =>
    do (st', size, ok) <- iteration H E I i st;
    do (sizes, ls) <- iterations H E I n' (S i) st';
    Ok (size :: sizes, if ok then ls else LNotVerified :: ls)
  end.
(** the loop followed by print_timings, bench.cpp:75-113, 47-55, bench_free.cpp:99-137, 47-55 *)
Definition measure (H : oracle) (E : surroundings) (I : instance) (iter : N) : res (list line) :=
  do (sizes, ls) <- iterations H E I (N.to_nat iter) 0 None;
  Ok (ls ++ LHeader :: map LRow sizes).
Definition instance_line (I : instance) : line := LInstance (num_parties I) (num_rounds I) (lambda I) (m1 I) (m2 I) (key_size (i_aes I)).

(** bench: main and bench_sign_and_verify, bench.cpp:57-124: the exit status and the lines printed *)
Definition bench (timer posix einval : bool) (H : oracle) (E : surroundings) (args : list cstr) : res (Z * list line) :=
  match parse_args posix einval args with
  | inl l => Ok ((-1)%Z, [l])
  | inr (p, iter) =>
    if negb timer then Ok (0%Z, [LTimer]) else
    do J <- banquet_instance_get (Z.of_N p);
    do ls <- measure H E J iter;
    Ok (0%Z, instance_line J :: ls)
  end.

(** The structure bench_free.cpp:69-89 fills in.  It starts uninitialised ([junk]); the member params is never set, and aes_params
    is not set for an invalid kappa.  Sizes are 32-bit. *)
Definition free_instance (junk : instance) (o : free_options) : instance * list line :=
  let aes := if (o_kappa o =? 16)%N then Some (mkAes 16 16 1 200) else if (o_kappa o =? 24)%N then Some (mkAes 24 16 2 416)
             else if (o_kappa o =? 32)%N then Some (mkAes 32 16 2 500) else None in
  (mkInst (match aes with Some a => a | None => i_aes junk end) (N.to_nat (N.modulo (2 * o_kappa o) (2 ^ 32))) (N.to_nat (o_kappa o)) (N.to_nat (o_tau o))
     (N.to_nat (o_parties o)) (N.to_nat (o_m1 o)) (N.to_nat (o_m2 o)) (N.to_nat (o_lambda o)) (i_params junk),
   match aes with Some _ => [] | None => [LKappa] end).
(** bench_free: main and bench_sign_and_verify_free, bench_free.cpp:57-148; the product in line 94 is a 32-bit one *)
Definition bench_free (timer posix einval : bool) (H : oracle) (E : surroundings) (junk : instance) (args : list cstr) : res (Z * list line) :=
  do r <- parse_args_free posix einval args;
  match r with
  | inl l => Ok ((-1)%Z, [l])
  | inr o =>
    if negb timer then Ok (0%Z, [LTimer]) else
    let (I, ls) := free_instance junk o in
    let ls := ls ++ [instance_line I] in
    if negb (N.eqb (N.modulo (o_m1 o * o_m2 o) (2 ^ 32)) (N.of_nat (num_sboxes (i_aes I)))) then Ok (0%Z, ls ++ [LSplit]) else
    do rest <- measure H E I (o_iter o);
    Ok (0%Z, ls ++ rest)
  end.
