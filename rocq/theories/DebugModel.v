(** The program built without NDEBUG (for example with CMAKE_BUILD_TYPE=Debug): as BanquetModel, with its assertions.
    The functions repeat those of TreeModel and BanquetModel that contain assertions or call such functions, with the same
    names preceded by "d_".  A failed assertion ends the process: [Abort]. *)
From Coq Require Import Arith NArith List Bool.
From Verif Require Import Prelude FieldModel PolyModel Instances AesModel HashModel TreeModel BanquetModel.
Import ListNotations.

Inductive dres (A : Type) : Type := Done (r : res A) | Abort.
Arguments Done {A}. Arguments Abort {A}.
Definition dbind {A B} (m : dres A) (f : A -> dres B) : dres B :=
  match m with
  | Done (Ok a) => f a
  | Done (Throw e) => Done (Throw e)
  | Done (UB u) => Done (UB u)
  | Done OutOfFuel => Done OutOfFuel
  | Abort => Abort
  end.
Notation "'run' x <- e ; f" := (dbind e (fun x => f))
  (at level 200, x pattern, e at level 100, f at level 200, right associativity).
(** assert(b) *)
Definition check (b : bool) : dres unit := if b then Done (Ok tt) else Abort.
Fixpoint dmapM {A B} (f : A -> dres B) (l : list A) : dres (list B) :=
  match l with
  | [] => Done (Ok [])
  | a :: l' => run b <- f a; run bs <- dmapM f l'; Done (Ok (b :: bs))
  end.
Fixpoint dfoldM {A B} (f : B -> A -> dres B) (l : list A) (b : B) : dres B :=
  match l with
  | [] => Done (Ok b)
  | a :: l' => run b' <- f b a; dfoldM f l' b'
  end.

(** *** tree.cpp *)
(** get_parent, tree.cpp:63-66 *)
Definition d_get_parent (node : nat) : dres nat := run _ <- check (negb (node =? 0)); Done (Ok (get_parent node)).
(** get_sibling, tree.cpp:196-210, 311-324 *)
Definition d_get_sibling (e : list bool) (total node : nat) : dres nat :=
  run _ <- check (node <? total);
  run _ <- check (negb (node =? 0));
  run _ <- check (has_sibling e node);
  if Nat.odd node then if node + 1 <? total then Done (Ok (node + 1)) else Abort
  else Done (Ok (node - 1)).
Section Tree.
Variable H : oracle.
Variable salt : bytes.
Variable rep_idx : nat.
(** SeedTree::SeedTree(seed, num_leaves, salt, rep_idx), tree.cpp:69-157 *)
Definition d_seed_tree (seed : bytes) (num_leaves : nat) : dres tree :=
  run total <- Done (num_total_nodes num_leaves);
  run e <- Done (build_exists total num_leaves);
  let ss := length seed in
  run has <- Done (set (repeat false total) 0 true);
  run data <- Done (write_at (zeros (total * ss)) 0 seed);
  run _ <- d_get_parent (total - 1);
  run w <- Done (expand_all H salt rep_idx false e ss total 64 64 (has, (data, zeros 64)));
  Done (Ok (mkTree (fst (snd w)) e (fst w) ss num_leaves total)).
(** one step of the loop at tree.cpp:215-225, with the get_parent that follows it *)
Definition d_place_sibling (e : list bool) (ss total : nat) (entries : list bytes) (w : bytes * list bool) (p : nat * nat)
  : dres (bytes * list bool) :=
  let '(data, has) := w in
  let '(path_idx, node) := p in
  run w <- (if has_sibling e node then
    run sib <- d_get_sibling e total node;
    Done (do v <- get entries path_idx;
          do data <- write_at data (sib * ss) v;
          do has <- set has sib true; Ok (data, has))
  else Done (Ok w));
  run _ <- d_get_parent node;
  Done (Ok w).
(** SeedTree::SeedTree(reveallist, num_leaves, salt, rep_idx), tree.cpp:159-293 *)
Definition d_seed_tree_rev (rl : reveal_list) (num_leaves : nat) : dres tree :=
  run total <- Done (num_total_nodes num_leaves);
  run e <- Done (build_exists total num_leaves);
  run front <- Done (match fst rl with [] => UB EmptyFront | v :: _ => Ok v end);
  let ss := length front in
  let pth := path (total - num_leaves + snd rl) in
  run w <- dfoldM (d_place_sibling e ss total (fst rl)) (combine (seq 0 (length pth)) pth) (zeros (total * ss), repeat false total);
  run _ <- d_get_parent (total - 1);
  run w <- Done (if 64 <? 2 * ss then UB OutOfBounds else
                 expand_all H salt rep_idx true e ss total ss (2 * ss) (snd w, (fst w, zeros 64)));
  Done (Ok (mkTree (fst (snd w)) e (fst w) ss num_leaves total)).
End Tree.
(** SeedTree::reveal_all_but, tree.cpp:295-343 *)
Definition d_reveal_all_but (t : tree) (leaf_idx : nat) : dres reveal_list :=
  let first := t_total t - t_leaves t in
  run entries <- dmapM (fun node =>
    run v <- (if has_sibling (t_exists t) node
      then run sib <- d_get_sibling (t_exists t) (t_total t) node; Done (read (t_data t) (sib * t_seed_size t) (t_seed_size t))
      else Done (Ok (zeros (t_seed_size t))));
    run _ <- d_get_parent node;
    Done (Ok v)) (path (first + leaf_idx));
  Done (Ok (entries, leaf_idx)).
(** SeedTree::get_leaf, tree.cpp:345-351 *)
Definition d_get_leaf (t : tree) (leaf_idx : nat) : dres (option bytes) :=
  run _ <- check (leaf_idx <? t_leaves t); Done (get_leaf t leaf_idx).

(** *** aes.cpp *)
(** the assertions on the sizes, aes.cpp:495-496, 506-507, 837-838, 851-852, 1254-1255, 1268-1269 *)
Definition d_aes_sizes (ks : nat) (key pt : bytes) : dres unit :=
  if (ks =? 16) || (ks =? 24) || (ks =? 32) then
    run _ <- check (length key =? ks); check (length pt =? aes_pt_size ks)
  else Done (Ok tt).
Definition d_aes_plain (ks : nat) (key pt : bytes) : dres (option bytes) :=
  run _ <- d_aes_sizes ks key pt; Done (aes_plain ks key pt).
(** assert(ret), aes.cpp:515, 860, 1278 *)
Definition d_aes_with_sbox_output (ks : nat) (key pt : bytes) : dres (sv bytes) :=
  run _ <- d_aes_sizes ks key pt;
  run sb <- Done (aes_with_sbox_output ks key pt);
  run _ <- check (match snd sb with Some _ => true | None => false end);
  Done (Ok sb).

(** *** banquet.cpp *)
Definition d_by4 {A} (n : nat) (f4 : nat -> dres (list A)) (f1 : nat -> dres A) : dres (list A) :=
  run xs <- dmapM f4 (map (fun b => 4 * b) (seq 0 (n / 4)));
  run ys <- dmapM f1 (seq (4 * (n / 4)) (n - 4 * (n / 4)));
  Done (Ok (concat xs ++ ys)).
Section Debug.
Variable H : oracle.
Variable I : instance.
Variable c : fctx.
Notation ops := (gops c).
(** phase_3_expand, banquet.cpp:236-257 *)
Definition d_phase_3_expand (fuel : nat) (garb : nat -> N) (h3 : bytes) : dres (list nat) :=
  run _ <- check (N.of_nat (num_parties I) <? 65536)%N; Done (phase_3_expand H I fuel garb h3).
(** banquet.cpp:337-369 *)
Definition d_sign_setup (salt : bytes) (rep : nat) (master : bytes) : dres (tree * list bytes * list bytes) :=
  run t <- d_seed_tree H salt rep master (num_parties I);
  let leaf := fun p => run o <- d_get_leaf t p; Done (value o) in
  run coms <- d_by4 (num_parties I)
    (fun p => run s0 <- leaf p; run s1 <- leaf (p + 1); run s2 <- leaf (p + 2); run s3 <- leaf (p + 3);
              Done (commit_to_4_party_seeds H I s0 s1 s2 s3 salt rep p))
    (fun p => run s <- leaf p; Done (Ok (commit_to_party_seed H I s salt rep p)));
  run tapes <- dmapM (fun p => run s <- leaf p; Done (Ok (generate_tape H I salt rep p s))) (seq 0 (num_parties I));
  Done (Ok (t, coms, tapes)).
(** banquet.cpp:386-461, with the check of the broadcasts at 447-459 *)
Definition d_sign_phase1 (key t_vals pt ct : bytes) (tapes : list bytes) : dres rep1 :=
  run r <- Done (sign_phase1 I key t_vals pt tapes);
  run ct_check <- Done (foldM (fun acc b => xor_into b acc) (r1_bcast r) (zeros (pt_size I)));
  run _ <- check (bytes_eqb ct ct_check);
  Done (Ok r).
(** banquet.cpp:296-775 *)
Definition d_sign_body (fuel : nat) (garb : nat -> N) (kp : keypair) (msg : bytes) : dres signature :=
  let reps := seq 0 (num_rounds I) in
  let key := fst kp in
  run pt <- Done (read (snd kp) 0 (pt_size I));
  run ct <- Done (read (snd kp) (pt_size I) (pt_size I));
  run sb <- d_aes_with_sbox_output (key_size (i_aes I)) key pt;
  run _ <- check (match snd sb with Some ct2 => bytes_eqb ct ct2 | None => false end);
  let s_vals := fst (fst sb) in
  let t_vals := snd (fst sb) in
  let '(salt, seeds) := generate_salt_and_seeds H I kp msg in
  run setup <- dmapM (fun rep => run master <- Done (get seeds rep); d_sign_setup salt rep master) reps;
  let trees := map (fun x => fst (fst x)) setup in
  let coms := map (fun x => snd (fst x)) setup in
  let tapes := map snd setup in
  run ph1 <- dmapM (fun rep => run tp <- Done (get tapes rep); d_sign_phase1 key t_vals pt ct tp) reps;
  run h1 <- Done (phase_1_commitment H I salt (snd kp) msg coms (map r1_key_delta ph1) (map r1_t_delta ph1) (map r1_bcast ph1));
  run rss <- Done (phase_1_expand H I c h1);
  let xs1 := get_first_n_field_elements c (m2 I + 1) in
  run pre1 <- Done (precompute_lagrange_polynomials ops xs1);
  let xs2 := get_first_n_field_elements c (2 * m2 I + 1) in
  run pre2 <- Done (precompute_lagrange_polynomials ops xs2);
  run last_lagrange <- Done (get pre1 (m2 I));
  run last_sq <- Done (vmul ops last_lagrange last_lagrange);
  run prods <- Done (mapM (sbox_products I c pre1 last_lagrange s_vals t_vals) (seq 0 (m1 I)));
  run ph3 <- Done (mapM (fun rep =>
    do rs <- get rss rep; do p1 <- get ph1 rep; do tp <- get tapes rep;
    sign_phase3 I c xs2 prods last_sq rs p1 tp) reps);
  run h2 <- Done (phase_2_commitment H I c salt h1 (map r3_delta ph3));
  run Rs <- Done (phase_2_expand H I c fuel h2 (get_first_n_field_elements c (m2 I)));
  run ph5 <- Done (mapM (fun rep => do R <- get Rs rep; do p3 <- get ph3 rep; sign_phase5 I c pre1 pre2 R p3) reps);
  run h3 <- Done (phase_3_commitment H I c salt h2 (map fst ph5) (map snd ph5));
  run missing <- d_phase_3_expand fuel garb h3;
  run reveals <- dmapM (fun rep => run t <- Done (get trees rep); run m <- Done (get missing rep); d_reveal_all_but t m) reps;
  run proofs <- Done (mapM (fun rep =>
    do m <- get missing rep; do crow <- get coms rep; do com <- get crow m;
    do com <- copy_into com (zeros (digest_size I));
    do rv <- get reveals rep; do p1 <- get ph1 rep; do p3 <- get ph3 rep; do p5 <- get ph5 rep;
    let o := fst p5 in
    do accum <- accumulate I c (v_a o) (v_b o);
    if (accum =? v_c o)%N
    then Ok (mkProof rv com (r1_key_delta p1) (r1_t_delta p1) (r3_delta p3) (v_c o) (v_a o) (v_b o))
    else Throw ESanity) reps);
  Done (Ok (mkSig salt h1 h3 proofs)).
(** banquet.cpp:825-882 *)
Definition d_verify_setup (salt : bytes) (proof : rep_proof) (rep missing : nat) : dres (list bytes * list bytes) :=
  if negb (missing =? snd (p_reveal proof)) then Done (Throw EModifiedSig) else
  run t <- d_seed_tree_rev H salt rep (p_reveal proof) (num_parties I);
  let dummy := zeros (seed_size I) in
  let leaf_or := fun p => run o <- d_get_leaf t p; Done (Ok (value_or o dummy)) in
  run coms <- d_by4 (num_parties I)
    (fun p => run s0 <- leaf_or p; run s1 <- leaf_or (p + 1); run s2 <- leaf_or (p + 2); run s3 <- leaf_or (p + 3);
              Done (commit_to_4_party_seeds H I s0 s1 s2 s3 salt rep p))
    (fun p => if p =? missing then Done (Ok (zeros (digest_size I)))
              else run o <- d_get_leaf t p; run s <- Done (value o); Done (Ok (commit_to_party_seed H I s salt rep p)));
  run com <- Done (get coms missing);
  run com <- Done (copy_into (p_C proof) com);
  run coms <- Done (set coms missing com);
  run tapes <- d_by4 (num_parties I)
    (fun p => run s0 <- leaf_or p; run s1 <- leaf_or (p + 1); run s2 <- leaf_or (p + 2); run s3 <- leaf_or (p + 3);
              Done (generate_4_tapes H I salt rep p s0 s1 s2 s3))
    (fun p => run s <- leaf_or p; Done (Ok (generate_tape H I salt rep p s)));
  Done (Ok (coms, tapes)).
(** banquet.cpp:785-1173 *)
Definition d_verify_contexts (fuel : nat) (garb : nat -> N) (pk : bytes) (sig : signature) (msg : bytes) : dres (hctx * hctx) :=
  let reps := seq 0 (num_rounds I) in
  run pt <- Done (read pk 0 (pt_size I));
  run ct <- Done (read pk (pt_size I) (pt_size I));
  run h2 <- Done (phase_2_commitment H I c (s_salt sig) (s_h1 sig) (map p_P_delta (s_proofs sig)));
  run rss <- Done (phase_1_expand H I c (s_h1 sig));
  run Rs <- Done (phase_2_expand H I c fuel h2 (get_first_n_field_elements c (m2 I)));
  run missing <- d_phase_3_expand fuel garb (s_h3 sig);
  run setup <- dmapM (fun rep =>
    run proof <- Done (get (s_proofs sig) rep); run m <- Done (get missing rep); d_verify_setup (s_salt sig) proof rep m) reps;
  let coms := map fst setup in
  let tapes := map snd setup in
  run ph1 <- Done (mapM (fun rep =>
    do proof <- get (s_proofs sig) rep; do m <- get missing rep; do tp <- get tapes rep;
    verify_phase1 I pt ct proof m tp) reps);
  run pre1 <- Done (precompute_lagrange_polynomials ops (get_first_n_field_elements c (m2 I + 1)));
  run pre2 <- Done (precompute_lagrange_polynomials ops (get_first_n_field_elements c (2 * m2 I + 1)));
  run ph3 <- Done (mapM (fun rep =>
    do proof <- get (s_proofs sig) rep; do m <- get missing rep; do rs <- get rss rep; do tp <- get tapes rep;
    do p1 <- get ph1 rep;
    verify_phase3 I c rs proof m (fst (fst p1)) (snd (fst p1)) tp) reps);
  run ph5 <- Done (mapM (fun rep =>
    do proof <- get (s_proofs sig) rep; do m <- get missing rep; do R <- get Rs rep; do p3 <- get ph3 rep;
    verify_phase5 I c pre1 pre2 R proof m p3) reps);
  run ctx1 <- Done (phase_1_ctx I (s_salt sig) pk msg coms (map p_sk_delta (s_proofs sig)) (map p_t_delta (s_proofs sig)) (map snd ph1));
  run ctx3 <- Done (phase_3_ctx I c (s_salt sig) h2 (map fst ph5) (map snd ph5));
  Done (Ok (ctx1, ctx3)).
(** banquet.cpp:785-1194 *)
Definition d_verify_body (fuel : nat) (garb : nat -> N) (pk : bytes) (sig : signature) (msg : bytes) : dres bool :=
  run (ctx1, ctx3) <- d_verify_contexts fuel garb pk sig msg;
  let h1 := fst (hash_squeeze H (hash_final ctx1) (digest_size I)) in
  let h3 := fst (hash_squeeze H (hash_final ctx3) (digest_size I)) in
  run e1 <- Done (memcmp_eq h1 (s_h1 sig) (length h1));
  if negb e1 then Done (Ok false) else
  run e3 <- Done (memcmp_eq h3 (s_h3 sig) (length h3));
  if negb e3 then Done (Ok false) else
  Done (verify_relations I c (s_proofs sig) (seq 0 (num_rounds I))).
End Debug.

(** banquet_sign, banquet_verify: init_extension_field (no assertion in it), then the rest; the outcome of the call *)
Definition d_sign (H : oracle) (fuel : nat) (garb : nat -> N) (st : fstate) (I : instance) (kp : keypair) (msg : bytes) : dres signature :=
  match st_init st (lambda I) with
  | (Some c, Ok tt) => d_sign_body H I c fuel garb kp msg
  | _ => Done (snd (sign H fuel garb st I kp msg))
  end.
Definition d_verify (H : oracle) (fuel : nat) (garb : nat -> N) (st : fstate) (I : instance) (pk : bytes) (sig : signature) (msg : bytes) : dres bool :=
  match st_init st (lambda I) with
  | (Some c, Ok tt) => d_verify_body H I c fuel garb pk sig msg
  | _ => Done (snd (verify H fuel garb st I pk sig msg))
  end.
(** banquet_deserialize_signature, banquet.cpp:1238-1320 *)
Definition d_deserialize (H : oracle) (fuel : nat) (garb : nat -> N) (st : fstate) (I : instance) (ser : bytes) : dres signature :=
  run (salt, off) <- Done (take ser SALT_SIZE 0);
  run (h1, off) <- Done (take ser (digest_size I) off);
  run (h3, off) <- Done (take ser (digest_size I) off);
  run missing <- d_phase_3_expand H I fuel garb h3;
  run (proofs, off) <- Done (take_proofs st I ser missing off);
  run _ <- check (off =? length ser);
  Done (Ok (mkSig salt h1 h3 proofs)).
(** banquet_keygen, banquet.cpp:260-288 *)
Fixpoint d_keygen_loop (fuel : nat) (I : instance) (r : rng) (i : nat) (key pt : bytes) : dres keypair :=
  match fuel with
  | O => Done OutOfFuel
  | S f =>
    run key <- Done (rand_bytes r i key);
    run pt <- Done (rand_bytes r (i + 1) pt);
    run o <- d_aes_plain (key_size (i_aes I)) key pt;
    match o with
    | Some ct => Done (Ok (key, pt ++ ct))
    | None => d_keygen_loop f I r (i + 2) key pt
    end
  end.
Definition d_keygen (fuel : nat) (I : instance) (r : rng) : dres keypair :=
  d_keygen_loop fuel I r 0 (zeros (key_size (i_aes I))) (zeros (pt_size I)).
