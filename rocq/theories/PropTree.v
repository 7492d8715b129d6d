(** Property theorems about the seed tree (C24-C27).
    The hash is an arbitrary function H.  [seed_tree H salt rep seed n] is SeedTree(seed, n, salt, rep),
    [seed_tree_rev H salt rep rl n] is SeedTree(reveallist, n, salt, rep); both return Ok, or UB OutOfBounds when the
    C++ code would access memory outside a buffer.  TreeSpec defines [leaf_seed], [node_seed] and [ancestor].
    [leaves_ok n] is 2 <= n <= 2^29. *)
From Coq Require Import Arith NArith ZArith List Bool Lia.
From Verif Require Import Prelude Instances HashModel TreeModel TreeSpec TreeProofs TreeExpand TreeApi TreeRev.
Import ListNotations.

Example leaves_ok_is n : leaves_ok n <-> 2 <= n /\ (N.of_nat n <= 2 ^ 29)%N. Proof. reflexivity. Qed.
(** a concrete hash function, and trees of 19 and 16 leaves *)
Definition toy : oracle := fun v m k => (fold_left (fun a b => a * 7 + b + 1) m (if v then 1 else 2) * (N.of_nat k + 3) + N.of_nat k)%N.
Definition toy_seed : bytes := map N.of_nat (seq 1 16).
Definition toy_leaf (t : res tree) (j : nat) : option bytes := match (do t <- t; get_leaf t j) with Ok o => o | _ => None end.
Definition toy_some (o : option bytes) : bool := match o with Some _ => true | None => false end.

(** C24: every tree that can be constructed is rebuilt from the reveal list for leaf i, except for leaf i. *)
Theorem C24_rebuild : forall H salt rep seed n t i,
  leaves_ok n -> 1 <= length seed <= 32 -> seed_tree H salt rep seed n = Ok t -> i < n ->
  exists rl t', reveal_all_but t i = Ok rl /\ seed_tree_rev H salt rep rl n = Ok t' /\
    forall j, j < n -> get_leaf t j = Ok (Some (leaf_seed H salt rep seed n j)) /\
      get_leaf t' j = if j =? i then Ok None else get_leaf t j.
Proof. exact reconstruct. Qed.
Print Assumptions C24_rebuild.
Example C24_case :
  (let t := seed_tree toy [9; 8]%N 3 toy_seed 19 in
   let t' := (do t <- t; do rl <- reveal_all_but t 17; seed_tree_rev toy [9; 8]%N 3 rl 19) in
   forallb (fun j => toy_some (toy_leaf t j) && eqb (toy_some (toy_leaf t' j)) (negb (j =? 17))) (seq 0 19)) = true.
Proof. vm_compute. reflexivity. Qed.

(** C25: the rebuilt tree has no value on the path from the hidden leaf to the root, and the reveal list contains only
    seeds of nodes off that path (or zeros in place of a sibling that does not exist). *)
Theorem C25_reveal_hides : forall H salt rep seed n t i,
  leaves_ok n -> 1 <= length seed <= 32 -> seed_tree H salt rep seed n = Ok t -> i < n ->
  exists entries t', reveal_all_but t i = Ok (entries, i) /\ seed_tree_rev H salt rep (entries, i) n = Ok t' /\
    get_leaf t' i = Ok None /\ (forall k, ancestor k (first_leaf n + i) -> flag (t_has t') k = false) /\
    (forall v : bytes, In v entries -> v = zeros (length seed) \/
       exists k, ~ ancestor k (first_leaf n + i) /\ v = node_seed H salt rep seed k).
Proof. exact reveal_hides. Qed.
Print Assumptions C25_reveal_hides.
(** ... and the reveal list and all other leaves say nothing about the hidden leaf: for any value x there is a hash
    function under which they are all the same and the hidden leaf is x.  (Node numbers are hashed as 16-bit values, so
    this needs n <= 2^15; all parameter sets have n <= 256.) *)
Theorem C25_hidden_leaf_free : forall H salt rep seed n i x,
  leaves_ok n -> (N.of_nat n <= 32768)%N -> 1 <= length seed <= 32 ->
  (exists t, seed_tree H salt rep seed n = Ok t) -> i < n -> length x = length seed -> is_bytes x ->
  exists H' t t' rl, seed_tree H salt rep seed n = Ok t /\ seed_tree H' salt rep seed n = Ok t' /\
    reveal_all_but t i = Ok rl /\ reveal_all_but t' i = Ok rl /\
    get_leaf t' i = Ok (Some x) /\ (forall j, j < n -> j <> i -> get_leaf t' j = get_leaf t j).
Proof. exact hidden_free. Qed.
Print Assumptions C25_hidden_leaf_free.
Example C25_case : leaves_ok 19 /\ (N.of_nat 19 <= 32768)%N /\ 1 <= length toy_seed <= 32 /\
  (exists t, seed_tree toy [9; 8]%N 3 toy_seed 19 = Ok t) /\ is_bytes (zeros 16) /\ ancestor 1 (first_leaf 19 + 3).
Proof.
  split; [split; [lia|cbv; discriminate]|]. split; [cbv; discriminate|]. split; [cbn; lia|]. split.
  - apply (proj1 (first_ctor_iff toy [9; 8]%N 3 toy_seed 19 ltac:(split; [lia|cbv; discriminate]) ltac:(cbn; lia))). cbn. lia.
  - split; [apply is_bytes_zeros|]. do 4 (apply anc_up; [discriminate|]). change 1 with (parent (parent (parent (parent (first_leaf 19 + 3))))) at 1. constructor.
Qed.

(** C26: the reveal list has ceil_log2(n) entries of seed_size bytes. *)
Theorem C26_reveal_size : forall H salt rep seed n t i,
  leaves_ok n -> 1 <= length seed <= 32 -> seed_tree H salt rep seed n = Ok t -> i < n ->
  exists entries, reveal_all_but t i = Ok (entries, i) /\ length entries = ceil_log2_nat n /\
    forall v : bytes, In v entries -> length v = length seed.
Proof. exact reveal_size. Qed.
Print Assumptions C26_reveal_size.
Example C26_case :
  match (do t <- seed_tree toy [9]%N 1 toy_seed 19; reveal_all_but t 18) with Ok (e, _) => length e =? 5 | _ => false end = true.
Proof. vm_compute. reflexivity. Qed.

(** C27: the constructor from a seed stays inside its buffers exactly if n > 2^ceil(log2 n) - 16 (in particular for
    every power of two, so for all parameter sets); otherwise it overruns a 32-byte local array.  The property as
    stated, for every n >= 2, is false: *)
Theorem C27_first_constructor_partial : forall H salt rep seed n, leaves_ok n -> 1 <= length seed <= 32 ->
  (2 ^ Nat.log2_up n - 16 < n -> exists t, seed_tree H salt rep seed n = Ok t) /\
  (n <= 2 ^ Nat.log2_up n - 16 -> seed_tree H salt rep seed n = UB OutOfBounds).
Proof. exact first_ctor_iff. Qed.
Print Assumptions C27_first_constructor_partial.
Theorem C27_first_constructor_refuted : exists n, 2 <= n /\
  forall H salt rep seed, 1 <= length seed <= 32 -> seed_tree H salt rep seed n = UB OutOfBounds.
Proof. exists 33. split; [lia|]. intros H salt rep seed Hs. apply first_ctor_iff; [split; [lia|cbv; discriminate]|exact Hs|cbn; lia]. Qed.
Print Assumptions C27_first_constructor_refuted.
(** the constructor from a reveal list is safe for every n and every well-shaped list, whatever its contents *)
Theorem C27_second_constructor : forall H salt rep entries m n ss, leaves_ok n -> 1 <= ss <= 32 ->
  length entries = ceil_log2_nat n -> (forall v : bytes, In v entries -> length v = ss) -> m < n ->
  exists t, seed_tree_rev H salt rep (entries, m) n = Ok t /\
  (forall j, j < n -> exists o, get_leaf t j = Ok o /\ (o = None <-> j = m) /\ forall v, o = Some v -> length v = ss).
Proof. exact second_ctor_safe. Qed.
Print Assumptions C27_second_constructor.
(** every parameter set is in the safe range *)
Theorem C27_parameter_sets : forall I H salt rep seed, builtin I -> length seed = seed_size I ->
  exists t, seed_tree H salt rep seed (num_parties I) = Ok t.
Proof.
  intros I H salt rep seed HI Hs. destruct (builtin_tree I HI) as (A & B & C). rewrite <- Hs in C.
  exact (proj1 (first_ctor_iff H salt rep seed (num_parties I) A C) B).
Qed.
Print Assumptions C27_parameter_sets.
Example C27_case : builtin (mkInst AES256_PARAMS 64 32 43 256 25 20 6 23) /\ leaves_ok 33 /\ 2 ^ Nat.log2_up 33 - 16 = 48.
Proof. split; [exists 23%Z; reflexivity|]. split; [split; [lia|cbv; discriminate]|reflexivity]. Qed.
