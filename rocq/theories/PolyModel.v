(** Model of the polynomial / vector functions of /repo/field.cpp:328-468.
    The functions are written over an arbitrary carrier with the GF2E operations, so that the
    same definitions can be run on [N] (the program) and reasoned about in a field. *)
From Coq Require Import Arith NArith List Bool Lia.
From Verif Require Import Prelude Clmul FieldModel.
Import ListNotations.

(** the GF2E operations used by these functions *)
Record fops (A : Type) : Type := mkFops {
  f0 : A;                 (* GF2E() / GF2E(0) *)
  f1 : A;                 (* GF2E(1) *)
  fadd : A -> A -> A;     (* operator+, operator- (the same function, field.cpp:142-155) *)
  fmul : A -> A -> A;     (* operator* *)
  finv : A -> res A       (* inverse() *)
}.
Arguments mkFops {A}. Arguments f0 {A}. Arguments f1 {A}. Arguments fadd {A}.
Arguments fmul {A}. Arguments finv {A}.

(** the operations of GF2E in an initialised process *)
Definition gops (c : fctx) : fops N := mkFops 0%N 1%N gadd (gmul c) (ginverse c).

Section Poly.
Context {A : Type} (O : fops A).
Notation "a +f b" := (fadd O a b) (at level 50, left associativity).
Notation "a *f b" := (fmul O a b) (at level 40, left associativity).

(** one pass of the inner loop of build_from_roots, field.cpp:378-380:
    for (i = k-1; i >= 1; i--) poly[i] = poly[i]*tmp + poly[i-1] *)
Definition roots_inner (k : nat) (tmp : A) (poly : list A) : res (list A) :=
  foldM (fun poly i =>
           do pi <- get poly i;
           do pm <- get poly (i - 1);
           set poly i (pi *f tmp +f pm))
        (rev (seq 1 (k - 1))) poly.

(** build_from_roots, field.cpp:370-387 *)
Definition build_from_roots (roots : list A) : res (list A) :=
  let len := length roots in
  let poly := roots ++ [f0 O] in
  do poly <- foldM (fun poly k =>
      do tmp <- get poly k;
      do pm <- get poly (k - 1);
      do poly <- set poly k (tmp +f pm);
      do poly <- roots_inner k tmp poly;
      do p0 <- get poly 0;
      set poly 0 (p0 *f tmp))
    (seq 1 (len - 1)) poly;
  set poly len (f1 O).

(** eval, field.cpp:389-399 *)
Definition eval (poly : list A) (point : A) : A :=
  fold_left (fun acc coeff => (acc *f point) +f coeff) (rev poly) (f0 O).

(** operator+ / operator+= on vectors, field.cpp:403-424 *)
Fixpoint zip_add (a b : list A) : list A :=
  match a, b with
  | x :: a', y :: b' => (x +f y) :: zip_add a' b'
  | _, _ => []
  end.
Definition vadd (lhs rhs : list A) : res (list A) :=
  if negb (length lhs =? length rhs) then Throw ESizeMismatch else Ok (zip_add lhs rhs).

(** operator*(vector, scalar) and operator*(scalar, vector), field.cpp:445-457 *)
Definition vscale (lhs : list A) (rhs : A) : list A := map (fun x => x *f rhs) lhs.

(** operator*(vector, vector): naive polynomial multiplication, field.cpp:460-470.
    With two empty vectors the size wraps to 2^64-1 and the vector constructor throws. *)
Definition vmul (lhs rhs : list A) : res (list A) :=
  if (length lhs =? 0) && (length rhs =? 0) then Throw ELength else
  foldM (fun result i =>
      do li <- get lhs i;
      foldM (fun result j =>
          do rj <- get rhs j;
          do x <- get result (i + j);
          set result (i + j) (x +f (li *f rj)))
        (seq 0 (length rhs)) result)
    (seq 0 (length lhs)) (repeat (f0 O) (length lhs + length rhs - 1)).

(** precompute_lagrange_polynomials, field.cpp:328-353 *)
Definition precompute_lagrange_polynomials (x_values : list A) : res (list (list A)) :=
  let m := length x_values in
  mapM (fun k =>
      do den_except <- foldM (fun st j =>
          let '(denominator, x_except_k) := st in
          if negb (k =? j) then
            do xk <- get x_values k;
            do xj <- get x_values j;
            Ok (denominator *f (xk +f xj), x_except_k ++ [xj])
          else Ok st)
        (seq 0 m) (f1 O, []);
      let '(denominator, x_except_k) := den_except in
      do numerator <- build_from_roots x_except_k;
      do dinv <- finv O denominator;
      Ok (vscale numerator dinv))
    (seq 0 m).

(** interpolate_with_precomputation, field.cpp:355-368 *)
Definition interpolate_with_precomputation (pre : list (list A)) (y_values : list A) : res (list A) :=
  if negb (length pre =? length y_values) || (length y_values =? 0) then Throw EInterpSizes else
  do first <- get pre 0;
  foldM (fun r k =>
      do pk <- get pre k;
      do yk <- get y_values k;
      vadd r (vscale pk yk))
    (seq 0 (length y_values)) (repeat (f0 O) (length first)).

End Poly.
