(** Model of /repo/tree.cpp, tree.h: the GGM seed tree. *)
From Coq Require Import Arith NArith List Bool Lia.
From Verif Require Import Prelude Instances HashModel.
Import ListNotations.

(** HASH_PREFIX_1, types.h:13 *)
Definition HASH_PREFIX_1 : N := 1%N.

(** A gsl::span of the constructors: into _data, or into the constructor's local 64-byte array [dummy]. *)
Inductive span : Type := SData (off len : nat) | SDummy (len : nat).
Definition span_size (s : span) : nat := match s with SData _ n => n | SDummy n => n end.
(** the two buffers: _data and dummy *)
Notation mem := (bytes * bytes)%type.
(** the working state of the expansion loops: _node_has_value, _data, dummy *)
Notation wstate := (list bool * mem)%type.

(** writing b at position off of a buffer *)
Definition write_at (m : bytes) (off : nat) (b : bytes) : res bytes :=
  if off + length b <=? length m then Ok (firstn off m ++ b ++ skipn (off + length b) m) else UB OutOfBounds.
(** reading n bytes from the start of a span; span accesses go through data(), so they are limited by the buffer *)
Definition span_read (m : mem) (s : span) (n : nat) : res bytes :=
  match s with SData o _ => read (fst m) o n | SDummy _ => read (snd m) 0 n end.
Definition span_write (m : mem) (s : span) (off : nat) (b : bytes) : res mem :=
  match s with
  | SData o _ => do d <- write_at (fst m) (o + off) b; Ok (d, snd m)
  | SDummy _ => do d <- write_at (snd m) off b; Ok (fst m, d)
  end.

Section Tree.
Variable H : oracle.
Variable salt : bytes.
Variable rep_idx : nat.

(** expand_seed, tree.cpp:11-26 *)
Definition expand_seed (m : mem) (seed : span) (node_idx : nat) (out : span) : res mem :=
  let seed_size := span_size seed in
  do s <- span_read m seed seed_size;
  let ctx := hash_init_prefix (seed_size * 2) HASH_PREFIX_1 in
  let ctx := hash_update ctx s in
  let ctx := hash_update ctx salt in
  let ctx := hash_update_u16 ctx rep_idx in
  let ctx := hash_update_u16 ctx node_idx in
  let ctx := hash_final ctx in
  let '(o, ctx) := hash_squeeze H ctx seed_size in
  do m <- span_write m out 0 o;
  if span_size out =? 2 * seed_size then
    let '(o, ctx) := hash_squeeze H ctx seed_size in span_write m out seed_size o
  else Ok m.

(** expand_seed_x4, tree.cpp:28-62; lanes = four (seed span, output span) pairs.
    The second squeeze of a lane without second output goes to a local array of 32 bytes. *)
Definition expand_seed_x4 (m : mem) (lanes : list (span * span)) (node_idx : nat) : res mem :=
  let seed_size := match lanes with [] => 0 | l :: _ => span_size (fst l) end in
  let ctx := hash_init_prefix_x4 (seed_size * 2) HASH_PREFIX_1 in
  do seeds <- mapM (fun l => span_read m (fst l) seed_size) lanes;
  let ctx := hash_update_x4_4 ctx seeds in
  let ctx := hash_update_x4_1 ctx salt in
  let ctx := hash_update_x4_u16 ctx rep_idx in
  let ctx := hash_update_x4_u16s ctx node_idx in
  let ctx := hash_final_x4 ctx in
  let '(os, ctx) := hash_squeeze_x4 H ctx seed_size in
  do m <- foldM (fun m p => span_write m (snd (fst p)) 0 (snd p)) (combine lanes os) m;
  let '(os, ctx) := hash_squeeze_x4 H ctx seed_size in
  foldM (fun m p => let out := snd (fst p) in
           if span_size out =? 2 * seed_size then span_write m out seed_size (snd p)
           else if seed_size <=? 32 then Ok m else UB OutOfBounds) (combine lanes os) m.

(** get_parent, tree.cpp:63-66 (node <> 0; for node 0 the subtraction wraps, see [last_non_leaf] below) *)
Definition get_parent (node : nat) : nat := (node + 1) / 2 - 1.

(** class SeedTree, tree.h:14-44 *)
Record tree : Type := mkTree {
  t_data : bytes; t_exists : list bool; t_has : list bool;
  t_seed_size : nat; t_leaves : nat; t_total : nat }.

(** node_exists, node_has_value, tree.h:27-38 *)
Definition flag (l : list bool) (i : nat) : bool := nth i l false.

(** number of nodes, tree.cpp:72-77 and 162-167; the shifts are on int: undefined from 31 bits on *)
Definition num_total_nodes (num_leaves : nat) : res nat :=
  let tree_depth := 1 + ceil_log2_nat num_leaves in
  if 31 <=? tree_depth then UB OutOfBounds
  else Ok ((2 ^ tree_depth - 1) - (2 ^ (tree_depth - 1) - num_leaves)).

(** _node_exists, tree.cpp:79-90 and 169-180 *)
Definition mark_leaves (total num_leaves : nat) : res (list bool) :=
  foldM (fun e i => set e i true) (seq (total - num_leaves) num_leaves) (repeat false total).
(** the loop for (i = first; i > 0; i--) *)
Fixpoint mark_up (i : nat) (e : list bool) : res (list bool) :=
  match i with
  | O => Ok e
  | S i' => do e <- (if flag e (2 * i + 1) || flag e (2 * i + 2) then set e i true else Ok e); mark_up i' e
  end.
Definition build_exists (total num_leaves : nat) : res (list bool) :=
  do e <- mark_leaves total num_leaves;
  do e <- mark_up (total - num_leaves) e;
  set e 0 true.

(** whether node i is expanded: the first constructor only asks node_exists (tree.cpp:103,122,141), the second also
    node_has_value (tree.cpp:231,256,277) *)
Definition active (chk : bool) (e has : list bool) (i : nat) : bool := flag e i && (negb chk || flag has i).

(** one iteration of a scalar loop, tree.cpp:103-115, 140-153, 231-243, 277-289 *)
Definition step1 (chk : bool) (e : list bool) (ss : nat) (w : wstate) (i : nat) : res wstate :=
  let '(has, m) := w in
  if active chk e has i then
    do has <- set has (2 * i + 1) true;
    if flag e (2 * i + 2) then
      do m <- expand_seed m (SData (i * ss) ss) i (SData ((2 * i + 1) * ss) (2 * ss));
      do has <- set has (2 * i + 2) true; Ok (has, m)
    else
      do m <- expand_seed m (SData (i * ss) ss) i (SData ((2 * i + 1) * ss) ss); Ok (has, m)
  else Ok w.

(** the inner loop over j filling seeds[j], dsts[j], tree.cpp:120-134, 254-268.
    In the first constructor an unused lane has spans over the whole dummy array (64 bytes, tree.cpp:117-119), in the
    second of seed_size and 2*seed_size bytes (tree.cpp:247-253): dseed, ddst. *)
Definition lane_of (chk : bool) (e : list bool) (ss dseed ddst : nat) (hl : list bool * list (span * span)) (n : nat)
  : res (list bool * list (span * span)) :=
  let '(has, lanes) := hl in
  if active chk e has n then
    do has <- set has (2 * n + 1) true;
    if flag e (2 * n + 2) then
      do has <- set has (2 * n + 2) true;
      Ok (has, lanes ++ [(SData (n * ss) ss, SData ((2 * n + 1) * ss) (2 * ss))])
    else Ok (has, lanes ++ [(SData (n * ss) ss, SData ((2 * n + 1) * ss) ss)])
  else Ok (has, lanes ++ [(SDummy dseed, SDummy ddst)]).
(** one 4x iteration, tree.cpp:117-137, 247-271 *)
Definition step4 (chk : bool) (e : list bool) (ss dseed ddst : nat) (w : wstate) (i : nat) : res wstate :=
  let '(has, m) := w in
  do hl <- foldM (lane_of chk e ss dseed ddst) [i; i + 1; i + 2; i + 3] (has, []);
  do m <- expand_seed_x4 m (snd hl) i;
  Ok (fst hl, m).

(** the three loops, tree.cpp:99-154, 227-290: i <= MIN(last, 2); then i += 4 while i < (last/4)*4; then i <= last *)
Definition expand_all (chk : bool) (e : list bool) (ss total dseed ddst : nat) (w : wstate) : res wstate :=
  let last := get_parent (total - 1) in
  let n1 := Nat.min last 2 + 1 in
  let n4 := ((last / 4) * 4 - n1 + 3) / 4 in
  do w <- foldM (step1 chk e ss) (seq 0 n1) w;
  do w <- foldM (step4 chk e ss dseed ddst) (map (fun k => n1 + 4 * k) (seq 0 n4)) w;
  foldM (step1 chk e ss) (seq (n1 + 4 * n4) (last + 1 - (n1 + 4 * n4))) w.

(** SeedTree::SeedTree(seed, num_leaves, salt, rep_idx), tree.cpp:69-157.
    With a single node get_parent(0) wraps to SIZE_MAX and the first loop expands the root out of bounds. *)
Definition seed_tree (seed : bytes) (num_leaves : nat) : res tree :=
  do total <- num_total_nodes num_leaves;
  do e <- build_exists total num_leaves;
  let ss := length seed in
  do has <- set (repeat false total) 0 true;
  do data <- write_at (zeros (total * ss)) 0 seed;
  if total <=? 1 then UB OutOfBounds else
  do w <- expand_all false e ss total 64 64 (has, (data, zeros 64));
  Ok (mkTree (fst (snd w)) e (fst w) ss num_leaves total).

(** has_sibling, get_sibling: the lambdas at tree.cpp:185-210 and 299-324 *)
Definition has_sibling (e : list bool) (node : nat) : bool :=
  flag e node && negb (Nat.odd node && negb (flag e (node + 1))).
Definition get_sibling (total node : nat) : nat :=
  if Nat.odd node then (if node + 1 <? total then node + 1 else 0) else node - 1.
(** for (node = first + leaf; node != 0; node = get_parent(node)): the nodes visited (fuel = the starting node) *)
Fixpoint path_up (fuel node : nat) : list nat :=
  match fuel with
  | O => []
  | S f => if node =? 0 then [] else node :: path_up f (get_parent node)
  end.
Definition path (node : nat) : list nat := path_up node node.

(** reveal_list_t, types.h:22 *)
Definition reveal_list := (list bytes * nat)%type.

(** one step of the loop at tree.cpp:215-225 *)
Definition place_sibling (e : list bool) (ss total : nat) (entries : list bytes) (w : bytes * list bool) (p : nat * nat)
  : res (bytes * list bool) :=
  let '(data, has) := w in
  let '(path_idx, node) := p in
  if has_sibling e node then
    let sib := get_sibling total node in
    do v <- get entries path_idx;
    do data <- write_at data (sib * ss) v;
    do has <- set has sib true; Ok (data, has)
  else Ok w.
(** SeedTree::SeedTree(reveallist, num_leaves, salt, rep_idx), tree.cpp:159-293 *)
Definition seed_tree_rev (rl : reveal_list) (num_leaves : nat) : res tree :=
  do total <- num_total_nodes num_leaves;
  do e <- build_exists total num_leaves;
  do front <- (match fst rl with [] => UB EmptyFront | v :: _ => Ok v end);
  let ss := length front in
  let pth := path (total - num_leaves + snd rl) in
  do w <- foldM (place_sibling e ss total (fst rl)) (combine (seq 0 (length pth)) pth) (zeros (total * ss), repeat false total);
  if total <=? 1 then UB OutOfBounds else
  if 64 <? 2 * ss then UB OutOfBounds else   (* the dummy spans of 2*seed_size bytes must fit into 64 bytes *)
  do w <- expand_all true e ss total ss (2 * ss) (snd w, (fst w, zeros 64));
  Ok (mkTree (fst (snd w)) e (fst w) ss num_leaves total).

(** SeedTree::reveal_all_but, tree.cpp:295-343.  &_data[size] as the end of a range is taken as pointer arithmetic. *)
Definition reveal_all_but (t : tree) (leaf_idx : nat) : res reveal_list :=
  let first := t_total t - t_leaves t in
  do entries <- mapM (fun node =>
    if has_sibling (t_exists t) node
    then read (t_data t) (get_sibling (t_total t) node * t_seed_size t) (t_seed_size t)
    else Ok (zeros (t_seed_size t))) (path (first + leaf_idx));
  Ok (entries, leaf_idx).

(** SeedTree::get_leaf, tree.cpp:345-351; the assert on leaf_idx is not compiled in release builds *)
Definition get_leaf (t : tree) (leaf_idx : nat) : res (option bytes) :=
  let real := t_total t - t_leaves t + leaf_idx in
  if flag (t_has t) real then do b <- read (t_data t) (real * t_seed_size t) (t_seed_size t); Ok (Some b)
  else Ok None.
End Tree.
