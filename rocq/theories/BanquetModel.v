(** Model of /repo/banquet.cpp and /repo/tape.cpp: key generation, signing, verification and (de)serialization.

    Conventions
    - RepContainer objects are lists indexed by repetition and party; ContainerModel proves that the flat vector behaves so.
      A write longer than its slot is undefined behaviour here; in the code it runs into the next slot (MemModel, C76).
    - The loops over repetitions are [mapM] over [seq 0 num_rounds], phase after phase in the order of the code.
    - Consecutive hash_update calls of a loop are one update with the concatenation (hash_update appends).
    - The while loops that sample challenges and keys take a fuel argument and report [OutOfFuel] when it runs out.
    - assert is not compiled (the default build type is Release, CMakeLists.txt:6-8).
    - GF2E values are the numbers below 2^64 they store; std::optional::value on an empty optional throws. *)
From Coq Require Import Arith NArith List Bool.
From Verif Require Import Prelude FieldModel PolyModel Instances AesModel HashModel TreeModel.
Import ListNotations.

(** banquet_repetition_proof_t, types.h:28-37 *)
Record rep_proof : Type := mkProof {
  p_reveal : reveal_list; p_C : bytes; p_sk_delta : bytes; p_t_delta : bytes;
  p_P_delta : list N; p_P_at_R : N; p_S_at_R : list N; p_T_at_R : list N }.
(** banquet_signature_t, types.h:39-44 *)
Record signature : Type := mkSig { s_salt : bytes; s_h1 : bytes; s_h3 : bytes; s_proofs : list rep_proof }.
(** banquet_keypair_t, types.h:26 *)
Definition keypair := (bytes * bytes)%type.

(** types.h:11-19; HASH_PREFIX_1 is in TreeModel *)
Definition HASH_PREFIX_2 : N := 2%N.
Definition HASH_PREFIX_3 : N := 3%N.
Definition SALT_SIZE : nat := 32.

(** std::optional::value, std::optional::value_or *)
Definition value {A} (o : option A) : res A := match o with Some a => Ok a | None => Throw EBadOptional end.
Definition value_or {A} (o : option A) (d : A) : A := match o with Some a => a | None => d end.
(** memcmp(a.data(), b.data(), n) == 0 *)
Fixpoint bytes_eqb (a b : bytes) : bool :=
  match a, b with
  | [], [] => true
  | x :: a', y :: b' => N.eqb x y && bytes_eqb a' b'
  | _, _ => false
  end.
Definition memcmp_eq (a b : bytes) (n : nat) : res bool :=
  do a' <- read a 0 n; do b' <- read b 0 n; Ok (bytes_eqb a' b').

(** for (party = 0; party < (n/4)*4; party += 4) f4; for (; party < n; party++) f1 : the slots written, in order *)
Definition by4 {A} (n : nat) (f4 : nat -> res (list A)) (f1 : nat -> res A) : res (list A) :=
  do xs <- mapM f4 (map (fun b => 4 * b) (seq 0 (n / 4)));
  do ys <- mapM f1 (seq (4 * (n / 4)) (n - 4 * (n / 4)));
  Ok (concat xs ++ ys).

(** the dispatch on key_size used by keygen, sign and verify, banquet.cpp:268-281, 309-316, 432-445, 934-947.
    The AES functions load key_size bytes of the key and 16 or 32 bytes of the plaintext. *)
Definition aes_pt_size (ks : nat) : nat := if ks =? 16 then 16 else 32.
Definition by_key_size {A} (ks : nat) (f128 f192 f256 : A) : res A :=
  if ks =? 16 then Ok f128 else if ks =? 24 then Ok f192 else if ks =? 32 then Ok f256 else Throw EInvalidParams.
Definition aes_plain (ks : nat) (key pt : bytes) : res (option bytes) :=
  do f <- by_key_size ks aes_128 aes_192 aes_256;
  do k <- read key 0 ks; do p <- read pt 0 (aes_pt_size ks); Ok (f k p).
Definition aes_with_sbox_output (ks : nat) (key pt : bytes) : res (sv bytes) :=
  do f <- by_key_size ks aes_128_with_sbox_output aes_192_with_sbox_output aes_256_with_sbox_output;
  do k <- read key 0 ks; do p <- read pt 0 (aes_pt_size ks); Ok (f k p).
Definition aes_s_shares (ks : nat) (keys ts : list bytes) (pt : bytes) (slen : nat) : res (list (bytes * bytes)) :=
  do f <- by_key_size ks aes_128_s_shares aes_192_s_shares aes_256_s_shares; f keys ts pt slen.

(** block_size * num_blocks *)
Definition pt_size (I : instance) : nat := block_size (i_aes I) * num_blocks (i_aes I).
(** random_tape_size, banquet.cpp:328-330, 796-798 *)
Definition tape_size (I : instance) : nat :=
  key_size (i_aes I) + num_sboxes (i_aes I) + 2 * m1 I * lambda I + (m2 I + 1) * lambda I.

Section Hashing.
Variable H : oracle.
Variable I : instance.

(** RandomTapes::generate_tape, tape.cpp:42-54; the bytes written to the party's slot *)
Definition generate_tape (salt : bytes) (rep party : nat) (seed : bytes) : bytes :=
  let ctx := hash_init (length seed * 2) in
  let ctx := hash_update ctx seed in
  let ctx := hash_update ctx salt in
  let ctx := hash_update_u16 ctx rep in
  let ctx := hash_update_u16 ctx party in
  fst (hash_squeeze H (hash_final ctx) (tape_size I)).
(** RandomTapes::generate_4_tapes, tape.cpp:18-41; the length of seed0 is used for all four seeds *)
Definition generate_4_tapes (salt : bytes) (rep start_party : nat) (seed0 seed1 seed2 seed3 : bytes) : res (list bytes) :=
  let ctx := hash_init_x4 (length seed0 * 2) in
  do seeds <- mapM (fun s => read s 0 (length seed0)) [seed0; seed1; seed2; seed3];
  let ctx := hash_update_x4_4 ctx seeds in
  let ctx := hash_update_x4_1 ctx salt in
  let ctx := hash_update_x4_u16 ctx rep in
  let ctx := hash_update_x4_u16s ctx start_party in
  Ok (fst (hash_squeeze_x4 H (hash_final_x4 ctx) (tape_size I))).

(** commit_to_party_seed, banquet.cpp:50-63 *)
Definition commit_to_party_seed (seed salt : bytes) (rep party : nat) : bytes :=
  let ctx := hash_init (digest_size I) in
  let ctx := hash_update ctx salt in
  let ctx := hash_update_u16 ctx rep in
  let ctx := hash_update_u16 ctx party in
  let ctx := hash_update ctx seed in
  fst (hash_squeeze H (hash_final ctx) (digest_size I)).
(** commit_to_4_party_seeds, banquet.cpp:65-85; instance.seed_size bytes are read from each seed *)
Definition commit_to_4_party_seeds (seed0 seed1 seed2 seed3 salt : bytes) (rep party : nat) : res (list bytes) :=
  let ctx := hash_init_x4 (digest_size I) in
  let ctx := hash_update_x4_1 ctx salt in
  let ctx := hash_update_x4_u16 ctx rep in
  let ctx := hash_update_x4_u16s ctx party in
  do seeds <- mapM (fun s => read s 0 (seed_size I)) [seed0; seed1; seed2; seed3];
  let ctx := hash_update_x4_4 ctx seeds in
  Ok (fst (hash_squeeze_x4 H (hash_final_x4 ctx) (digest_size I))).

(** generate_salt_and_seeds, banquet.cpp:26-48 *)
Fixpoint squeeze_seeds (n : nat) (ctx : hctx) : list bytes :=
  match n with
  | O => []
  | S n' => let '(s, ctx) := hash_squeeze H ctx (seed_size I) in s :: squeeze_seeds n' ctx
  end.
Definition generate_salt_and_seeds (kp : keypair) (msg : bytes) : bytes * list bytes :=
  let ctx := hash_init (digest_size I) in
  let ctx := hash_update_u16 ctx (i_params I) in
  let ctx := hash_update ctx (fst kp) in
  let ctx := hash_update ctx (snd kp) in
  let ctx := hash_update ctx msg in
  let '(salt, ctx) := hash_squeeze H (hash_final ctx) SALT_SIZE in
  (salt, squeeze_seeds (num_rounds I) ctx).

(** phase_1_commitment, banquet.cpp:87-118: the hash context before hash_final, and the digest *)
Definition phase_1_ctx (salt pk msg : bytes) (coms : list (list bytes)) (key_deltas t_deltas : list bytes)
  (bcasts : list (list bytes)) : res hctx :=
  do parts <- mapM (fun rep =>
    do crow <- get coms rep; do brow <- get bcasts rep;
    do ps <- mapM (fun party => do com <- get crow party; do b <- get brow party; Ok (com ++ b)) (seq 0 (num_parties I));
    do kd <- get key_deltas rep; do td <- get t_deltas rep;
    Ok (concat ps ++ kd ++ td)) (seq 0 (num_rounds I));
  let ctx := hash_init_prefix (digest_size I) HASH_PREFIX_1 in
  let ctx := hash_update ctx salt in
  let ctx := hash_update ctx pk in
  let ctx := hash_update ctx msg in
  Ok (hash_update ctx (concat parts)).
Definition phase_1_commitment salt pk msg coms key_deltas t_deltas bcasts : res bytes :=
  do ctx <- phase_1_ctx salt pk msg coms key_deltas t_deltas bcasts;
  Ok (fst (hash_squeeze H (hash_final ctx) (digest_size I))).

(** phase_3_expand, banquet.cpp:236-257.  [garb e]: the indeterminate upper byte of the local variable party in
    iteration e; one squeezed byte only replaces the lower one. *)
Definition squeeze_size : nat := if 256 <? num_parties I then 2 else 1.
Definition party_mask : N := ((2 ^ N.of_nat (ceil_log2_nat (num_parties I)) - 1) mod 65536)%N.
Fixpoint sample_party (fuel : nat) (hi : N) (ctx : hctx) : res (nat * hctx) :=
  match fuel with
  | O => OutOfFuel
  | S f =>
    let '(b, ctx) := hash_squeeze H ctx squeeze_size in
    let party := if squeeze_size =? 2 then le_word b else (le_word b + 256 * hi)%N in
    let party := N.land party party_mask in
    if (N.of_nat (num_parties I) <=? party)%N then sample_party f (party / 256)%N ctx
    else Ok (N.to_nat party, ctx)
  end.
Fixpoint sample_parties (fuel : nat) (garb : nat -> N) (e n : nat) (ctx : hctx) : res (list nat) :=
  match n with
  | O => Ok []
  | S n' =>
    do (p, ctx) <- sample_party fuel (garb e mod 256)%N ctx;
    do ps <- sample_parties fuel garb (S e) n' ctx; Ok (p :: ps)
  end.
Definition phase_3_expand (fuel : nat) (garb : nat -> N) (h3 : bytes) : res (list nat) :=
  sample_parties fuel garb 0 (num_rounds I) (hash_final (hash_update (hash_init (digest_size I)) h3)).

(** ** The part that uses the extension field; [c] is the static field state after init_extension_field *)
Variable c : fctx.
Local Notation ops := (gops c).

(** GF2E::from_bytes at a position of a buffer, field.cpp:182-186: reads byte_size bytes *)
Definition elem_at (buf : bytes) (off : nat) : res N := do b <- read buf off (fc_byte_size c); Ok (from_bytes b).
(** hash_update_GF2E, banquet.cpp:17-24: the bytes hashed; bytes of the buffer beyond byte_size are uninitialised *)
Definition elem_bytes (e : N) : res bytes := read (to_bytes (fc_byte_size c) e) 0 (lambda I).

(** phase_1_expand, banquet.cpp:120-142 *)
Fixpoint squeeze_elems (n : nat) (ctx : hctx) : res (list N * hctx) :=
  match n with
  | O => Ok ([], ctx)
  | S n' =>
    let '(b, ctx) := hash_squeeze H ctx (lambda I) in
    do x <- elem_at b 0; do (xs, ctx) <- squeeze_elems n' ctx; Ok (x :: xs, ctx)
  end.
Fixpoint squeeze_rows (t : nat) (ctx : hctx) : res (list (list N)) :=
  match t with
  | O => Ok []
  | S t' => do (r, ctx) <- squeeze_elems (m1 I) ctx; do rs <- squeeze_rows t' ctx; Ok (r :: rs)
  end.
Definition phase_1_expand (h1 : bytes) : res (list (list N)) :=
  squeeze_rows (num_rounds I) (hash_final (hash_update (hash_init (digest_size I)) h1)).

(** phase_2_commitment, banquet.cpp:144-164 *)
Definition phase_2_ctx (salt h1 : bytes) (P_deltas : list (list N)) : res hctx :=
  do parts <- mapM (fun rep =>
    do row <- get P_deltas rep;
    do bs <- mapM (fun k => do x <- get row k; elem_bytes x) (seq 0 (m2 I)); Ok (concat bs)) (seq 0 (num_rounds I));
  let ctx := hash_init_prefix (digest_size I) HASH_PREFIX_2 in
  let ctx := hash_update ctx salt in
  let ctx := hash_update ctx h1 in
  Ok (hash_update ctx (concat parts)).
Definition phase_2_commitment salt h1 P_deltas : res bytes :=
  do ctx <- phase_2_ctx salt h1 P_deltas; Ok (fst (hash_squeeze H (hash_final ctx) (digest_size I))).

(** phase_2_expand, banquet.cpp:166-198 *)
Fixpoint sample_R (fuel : nat) (forbidden : list N) (ctx : hctx) : res (N * hctx) :=
  match fuel with
  | O => OutOfFuel
  | S f =>
    let '(b, ctx) := hash_squeeze H ctx (lambda I) in
    do x <- elem_at b 0;
    do fs <- read forbidden 0 (m2 I);
    if existsb (N.eqb x) fs then sample_R f forbidden ctx else Ok (x, ctx)
  end.
Fixpoint sample_Rs (fuel : nat) (forbidden : list N) (n : nat) (ctx : hctx) : res (list N) :=
  match n with
  | O => Ok []
  | S n' => do (x, ctx) <- sample_R fuel forbidden ctx; do xs <- sample_Rs fuel forbidden n' ctx; Ok (x :: xs)
  end.
Definition phase_2_expand (fuel : nat) (h2 : bytes) (forbidden : list N) : res (list N) :=
  sample_Rs fuel forbidden (num_rounds I) (hash_final (hash_update (hash_init (digest_size I)) h2)).

(** what one party contributes in phase 5: its shares of a_1..a_m1, of b_1..b_m1 and of c *)
Definition view := (list N * list N * N)%type.
Definition v_a (v : view) : list N := fst (fst v).
Definition v_b (v : view) : list N := snd (fst v).
Definition v_c (v : view) : N := snd v.

(** phase_3_commitment, banquet.cpp:200-234; [opened]: the opened a, b, c of each repetition, [views]: the shares *)
Definition phase_3_ctx (salt h2 : bytes) (opened : list view) (views : list (list view)) : res hctx :=
  do parts <- mapM (fun rep =>
    do o <- get opened rep; do vs <- get views rep;
    do c0 <- elem_bytes (v_c o);
    do cs <- mapM (fun party => do v <- get vs party; elem_bytes (v_c v)) (seq 0 (num_parties I));
    do js <- mapM (fun j =>
      do a <- get (v_a o) j; do a' <- elem_bytes a;
      do b <- get (v_b o) j; do b' <- elem_bytes b;
      do ps <- mapM (fun party =>
        do v <- get vs party;
        do x <- get (v_a v) j; do x' <- elem_bytes x;
        do y <- get (v_b v) j; do y' <- elem_bytes y; Ok (x' ++ y')) (seq 0 (num_parties I));
      Ok (a' ++ b' ++ concat ps)) (seq 0 (m1 I));
    Ok (c0 ++ concat cs ++ concat js)) (seq 0 (num_rounds I));
  let ctx := hash_init_prefix (digest_size I) HASH_PREFIX_3 in
  let ctx := hash_update ctx salt in
  let ctx := hash_update ctx h2 in
  Ok (hash_update ctx (concat parts)).
Definition phase_3_commitment salt h2 opened views : res bytes :=
  do ctx <- phase_3_ctx salt h2 opened views; Ok (fst (hash_squeeze H (hash_final ctx) (digest_size I))).

(** ** Steps common to signing and verification *)

(** RandomTapes::get_bytes for every party, tape.cpp:56-60 with banquet.cpp:391-395, 412-417, 902-906, 917-922 *)
Definition tape_shares (tapes : list bytes) (off len : nat) : res (list bytes) :=
  mapM (fun party => do tp <- get tapes party; read tp off len) (seq 0 (num_parties I)).
(** "fix first share", banquet.cpp:402-406, 422-426, 909-913, 924-928 *)
Definition fix_first (delta : bytes) (shares : list bytes) : res (list bytes) :=
  do first <- get shares 0; do first <- xor_into delta first; set shares 0 first.
(** lift_uint8_t of every byte of a party's shares, banquet.cpp:556-566, 1002-1012 *)
Definition lift_shares (sh : bytes) : res (list N) :=
  mapM (fun idx => do x <- get sh idx; Ok (lift c x)) (seq 0 (num_sboxes (i_aes I))).
(** the points of S_j and T_j held by one party (s_prime, t_prime), banquet.cpp:551-596, 996-1038 *)
Definition party_points (rs : list N) (sh_s sh_t tape : bytes) : res (list (list N) * list (list N)) :=
  do lifted_s <- lift_shares sh_s;
  do lifted_t <- lift_shares sh_t;
  do rows <- mapM (fun j =>
    do r <- get rs j;
    do s_bar <- mapM (fun k => do x <- get lifted_s (j + m1 I * k); Ok (gmul c r x)) (seq 0 (m2 I));
    do t_bar <- mapM (fun k => get lifted_t (j + m1 I * k)) (seq 0 (m2 I));
    do sp <- read tape (key_size (i_aes I) + num_sboxes (i_aes I) + j * 2 * lambda I) (2 * lambda I);
    do s <- elem_at sp 0;
    do t <- elem_at sp (lambda I);
    Ok (s_bar ++ [s], t_bar ++ [t])) (seq 0 (m1 I));
  Ok (map fst rows, map snd rows).
(** a party's share of P before the correction, banquet.cpp:617-644, 1043-1072 *)
Definition P_share (rs : list N) (party : nat) (tape : bytes) : res (list N) :=
  do sum_r <- foldM (fun acc j => do r <- get rs j; Ok (gadd acc r)) (seq 0 (m1 I)) 0%N;
  let first := if party =? 0 then repeat sum_r (m2 I) else repeat 0%N (m2 I) in
  do sp <- read tape (key_size (i_aes I) + num_sboxes (i_aes I) + m1 I * 2 * lambda I) ((m2 I + 1) * lambda I);
  do rest <- mapM (fun k => elem_at sp (k * lambda I)) (seq 0 (m2 I + 1));
  Ok (first ++ rest).
(** "adjust first share", banquet.cpp:653-654, 1073-1078 *)
Definition adjust_first (deltas : list N) (shares : list (list N)) : res (list (list N)) :=
  do first <- get shares 0;
  do first <- foldM (fun s i => do d <- get deltas i; do x <- get s (m2 I + i); set s (m2 I + i) (gadd x d))
    (seq 0 (m2 I + 1)) first;
  set shares 0 first.
(** the Lagrange polynomials evaluated at R, banquet.cpp:692-699, 1107-1114 *)
Definition lagrange_at_R (pre : list (list N)) (n : nat) (R : N) : res (list N) :=
  mapM (fun k => do p <- get pre k; Ok (eval ops p R)) (seq 0 n).
(** a party's shares of a, b and c, banquet.cpp:701-713, 1119-1134 *)
Definition party_view (lag1 lag2 : list N) (pts : list (list N) * list (list N)) (P_sh : list N) : res view :=
  do a <- mapM (fun j => do row <- get (fst pts) j; dot_product c lag1 row) (seq 0 (m1 I));
  do b <- mapM (fun j => do row <- get (snd pts) j; dot_product c lag1 row) (seq 0 (m1 I));
  do x <- dot_product c lag2 P_sh;
  Ok ((a, b), x).
(** sum_j a_j * b_j as accumulated at banquet.cpp:763-766, 1184-1188 *)
Definition accumulate (a b : list N) : res N :=
  foldM (fun acc j => do x <- get a j; do y <- get b j; Ok (gadd acc (gmul c x y))) (seq 0 (m1 I)) 0%N.

(** ** banquet_sign *)

(** seed tree, commitments and tapes of one repetition, banquet.cpp:337-369 *)
Definition sign_setup (salt : bytes) (rep : nat) (master : bytes) : res (tree * list bytes * list bytes) :=
  do t <- seed_tree H salt rep master (num_parties I);
  let leaf := fun p => do o <- get_leaf t p; value o in
  do coms <- by4 (num_parties I)
    (fun p => do s0 <- leaf p; do s1 <- leaf (p + 1); do s2 <- leaf (p + 2); do s3 <- leaf (p + 3);
              commit_to_4_party_seeds s0 s1 s2 s3 salt rep p)
    (fun p => do s <- leaf p; Ok (commit_to_party_seed s salt rep p));
  do tapes <- mapM (fun p => do s <- leaf p; Ok (generate_tape salt rep p s)) (seq 0 (num_parties I));
  Ok (t, coms, tapes).

(** sharing of a secret, banquet.cpp:388-406 (the key), 409-426 (the S-box outputs): delta and corrected shares *)
Definition share_secret (secret : bytes) (tapes : list bytes) (off len : nat) : res (bytes * list bytes) :=
  do shares <- tape_shares tapes off len;
  do delta <- foldM (fun d s => xor_into s d) shares secret;
  do shares <- fix_first delta shares;
  Ok (delta, shares).

(** phase 1 of one repetition, banquet.cpp:386-461 *)
Record rep1 : Type := mkRep1 {
  r1_key_delta : bytes; r1_t_delta : bytes; r1_keys : list bytes; r1_t : list bytes; r1_s : list bytes; r1_bcast : list bytes }.
Definition sign_phase1 (key t_vals pt : bytes) (tapes : list bytes) : res rep1 :=
  do (kd, keys) <- share_secret key tapes 0 (key_size (i_aes I));
  do (td, ts) <- share_secret t_vals tapes (key_size (i_aes I)) (num_sboxes (i_aes I));
  do out <- aes_s_shares (key_size (i_aes I)) keys ts pt (num_sboxes (i_aes I));
  Ok (mkRep1 kd td keys ts (map snd out) (map fst out)).

(** the products of the interpolated S-box pairs, banquet.cpp:518-538 *)
Definition sbox_products (pre : list (list N)) (last_lagrange : list N) (s t : bytes) (j : nat)
  : res (list N * list N * list N) :=
  do ys <- mapM (fun k => do x <- get s (j + m1 I * k); Ok (lift c x)) (seq 0 (m2 I));
  do yt <- mapM (fun k => do x <- get t (j + m1 I * k); Ok (lift c x)) (seq 0 (m2 I));
  do S_poly <- interpolate_with_precomputation ops pre (ys ++ [0%N]);
  do T_poly <- interpolate_with_precomputation ops pre (yt ++ [0%N]);
  do st <- vmul ops S_poly T_poly;
  do sl <- vmul ops S_poly last_lagrange;
  do tl <- vmul ops T_poly last_lagrange;
  Ok (st, sl, tl).

(** the sum over the parties of the last point of polynomial j (s_random_points, t_random_points), banquet.cpp:590-591 *)
Definition random_point (pts : list (list (list N))) (j : nat) : res N :=
  foldM (fun acc pp => do row <- get pp j; do x <- get row (m2 I); Ok (gadd acc x)) pts 0%N.

(** the product polynomial of one repetition, banquet.cpp:598-612 *)
Definition P_poly (rs : list N) (prods : list (list N * list N * list N)) (last_sq : list N) (s_rnd t_rnd : list N)
  : res (list N) :=
  foldM (fun P j =>
    do r <- get rs j; do pr <- get prods j; do sr <- get s_rnd j; do tr <- get t_rnd j;
    do x <- vadd ops (fst (fst pr)) (vscale ops (snd (fst pr)) tr);
    do x <- vadd ops (vscale ops x r) (vscale ops (snd pr) sr);
    do x <- vadd ops x (vscale ops (vscale ops last_sq sr) tr);
    vadd ops P x) (seq 0 (m1 I)) (repeat 0%N (2 * m2 I + 1)).

(** P_deltas, banquet.cpp:645-652 *)
Definition P_deltas_of (P : list N) (xs : list N) (shares : list (list N)) : res (list N) :=
  mapM (fun i =>
    do x <- get xs (m2 I + i);
    foldM (fun acc sh => do y <- get sh (m2 I + i); Ok (gadd acc y)) shares (eval ops P x)) (seq 0 (m2 I + 1)).

(** phase 3 of one repetition, banquet.cpp:540-656: points, corrected P shares and P_delta *)
Record rep3 : Type := mkRep3 { r3_pts : list (list (list N) * list (list N)); r3_P : list N; r3_shares : list (list N); r3_delta : list N }.
Definition sign_phase3 (xs2 : list N) (prods : list (list N * list N * list N)) (last_sq : list N)
  (rs : list N) (ph1 : rep1) (tapes : list bytes) : res rep3 :=
  do pts <- mapM (fun party =>
    do s <- get (r1_s ph1) party; do t <- get (r1_t ph1) party; do tp <- get tapes party;
    party_points rs s t tp) (seq 0 (num_parties I));
  do s_rnd <- mapM (random_point (map fst pts)) (seq 0 (m1 I));
  do t_rnd <- mapM (random_point (map snd pts)) (seq 0 (m1 I));
  do P <- P_poly rs prods last_sq s_rnd t_rnd;
  do shares <- mapM (fun party => do tp <- get tapes party; P_share rs party tp) (seq 0 (num_parties I));
  do deltas <- P_deltas_of P xs2 shares;
  do shares <- adjust_first deltas shares;
  Ok (mkRep3 pts P shares deltas).

(** phase 5 of one repetition, banquet.cpp:688-724: opened values and views *)
Definition sign_phase5 (pre1 pre2 : list (list N)) (R : N) (ph3 : rep3) : res (view * list view) :=
  do lag1 <- lagrange_at_R pre1 (m2 I + 1) R;
  do lag2 <- lagrange_at_R pre2 (2 * m2 I + 1) R;
  do views <- mapM (fun party =>
    do pts <- get (r3_pts ph3) party; do sh <- get (r3_shares ph3) party;
    party_view lag1 lag2 pts sh) (seq 0 (num_parties I));
  do a <- mapM (fun j => foldM (fun acc v => do x <- get (v_a v) j; Ok (gadd acc x)) views 0%N) (seq 0 (m1 I));
  do b <- mapM (fun j => foldM (fun acc v => do x <- get (v_b v) j; Ok (gadd acc x)) views 0%N) (seq 0 (m1 I));
  Ok (((a, b), fold_left (fun acc v => gadd acc (v_c v)) views 0%N), views).

(** banquet_sign after init_extension_field, banquet.cpp:296-775 *)
Definition sign_body (fuel : nat) (garb : nat -> N) (kp : keypair) (msg : bytes) : res signature :=
  let reps := seq 0 (num_rounds I) in
  let key := fst kp in
  do pt <- read (snd kp) 0 (pt_size I);
  do ct <- read (snd kp) (pt_size I) (pt_size I);
  do sb <- aes_with_sbox_output (key_size (i_aes I)) key pt;
  let s_vals := fst (fst sb) in
  let t_vals := snd (fst sb) in
  let '(salt, seeds) := generate_salt_and_seeds kp msg in
  do setup <- mapM (fun rep => do master <- get seeds rep; sign_setup salt rep master) reps;
  let trees := map (fun x => fst (fst x)) setup in
  let coms := map (fun x => snd (fst x)) setup in
  let tapes := map snd setup in
  do ph1 <- mapM (fun rep => do tp <- get tapes rep; sign_phase1 key t_vals pt tp) reps;
  do h1 <- phase_1_commitment salt (snd kp) msg coms (map r1_key_delta ph1) (map r1_t_delta ph1) (map r1_bcast ph1);
  do rss <- phase_1_expand h1;
  let xs1 := get_first_n_field_elements c (m2 I + 1) in
  do pre1 <- precompute_lagrange_polynomials ops xs1;
  let xs2 := get_first_n_field_elements c (2 * m2 I + 1) in
  do pre2 <- precompute_lagrange_polynomials ops xs2;
  do last_lagrange <- get pre1 (m2 I);
  do last_sq <- vmul ops last_lagrange last_lagrange;
  do prods <- mapM (sbox_products pre1 last_lagrange s_vals t_vals) (seq 0 (m1 I));
  do ph3 <- mapM (fun rep =>
    do rs <- get rss rep; do p1 <- get ph1 rep; do tp <- get tapes rep;
    sign_phase3 xs2 prods last_sq rs p1 tp) reps;
  do h2 <- phase_2_commitment salt h1 (map r3_delta ph3);
  do Rs <- phase_2_expand fuel h2 (get_first_n_field_elements c (m2 I));
  do ph5 <- mapM (fun rep => do R <- get Rs rep; do p3 <- get ph3 rep; sign_phase5 pre1 pre2 R p3) reps;
  do h3 <- phase_3_commitment salt h2 (map fst ph5) (map snd ph5);
  do missing <- phase_3_expand fuel garb h3;
  do reveals <- mapM (fun rep => do t <- get trees rep; do m <- get missing rep; reveal_all_but t m) reps;
  do proofs <- mapM (fun rep =>
    do m <- get missing rep; do crow <- get coms rep; do com <- get crow m;
    do com <- copy_into com (zeros (digest_size I));
    do rv <- get reveals rep; do p1 <- get ph1 rep; do p3 <- get ph3 rep; do p5 <- get ph5 rep;
    let o := fst p5 in
    do accum <- accumulate (v_a o) (v_b o);
    if (accum =? v_c o)%N
    then Ok (mkProof rv com (r1_key_delta p1) (r1_t_delta p1) (r3_delta p3) (v_c o) (v_a o) (v_b o))
    else Throw ESanity) reps;
  Ok (mkSig salt h1 h3 proofs).

(** ** banquet_verify *)

(** seed tree, commitments and tapes of one repetition, banquet.cpp:825-882 *)
Definition verify_setup (salt : bytes) (proof : rep_proof) (rep missing : nat) : res (list bytes * list bytes) :=
  if negb (missing =? snd (p_reveal proof)) then Throw EModifiedSig else
  do t <- seed_tree_rev H salt rep (p_reveal proof) (num_parties I);
  let dummy := zeros (seed_size I) in
  let leaf_or := fun p => do o <- get_leaf t p; Ok (value_or o dummy) in
  do coms <- by4 (num_parties I)
    (fun p => do s0 <- leaf_or p; do s1 <- leaf_or (p + 1); do s2 <- leaf_or (p + 2); do s3 <- leaf_or (p + 3);
              commit_to_4_party_seeds s0 s1 s2 s3 salt rep p)
    (fun p => if p =? missing then Ok (zeros (digest_size I))
              else do o <- get_leaf t p; do s <- value o; Ok (commit_to_party_seed s salt rep p));
  do com <- get coms missing;
  do com <- copy_into (p_C proof) com;
  do coms <- set coms missing com;
  do tapes <- by4 (num_parties I)
    (fun p => do s0 <- leaf_or p; do s1 <- leaf_or (p + 1); do s2 <- leaf_or (p + 2); do s3 <- leaf_or (p + 3);
              generate_4_tapes salt rep p s0 s1 s2 s3)
    (fun p => do s <- leaf_or p; Ok (generate_tape salt rep p s));
  Ok (coms, tapes).

(** the recomputed executions of AES of one repetition, banquet.cpp:897-959: (s, t, output broadcasts) *)
Definition verify_phase1 (pt ct : bytes) (proof : rep_proof) (missing : nat) (tapes : list bytes)
  : res (list bytes * list bytes * list bytes) :=
  do keys <- tape_shares tapes 0 (key_size (i_aes I));
  do keys <- fix_first (p_sk_delta proof) keys;
  do ts <- tape_shares tapes (key_size (i_aes I)) (num_sboxes (i_aes I));
  do ts <- fix_first (p_t_delta proof) ts;
  do out <- aes_s_shares (key_size (i_aes I)) keys ts pt (num_sboxes (i_aes I));
  let bcast := map fst out in
  do old <- get bcast missing;
  do mb <- copy_into ct old;
  do mb <- foldM (fun acc party => if party =? missing then Ok acc else do b <- get bcast party; xor_into b acc)
    (seq 0 (num_parties I)) mb;
  do bcast <- set bcast missing mb;
  Ok (map snd out, ts, bcast).

(** the recomputed shares of the polynomials, banquet.cpp:987-1086; None for the missing party *)
Definition verify_phase3 (rs : list N) (proof : rep_proof) (missing : nat) (s t tapes : list bytes)
  : res (list (option (list (list N) * list (list N))) * list (list N)) :=
  do pts <- mapM (fun party =>
    if party =? missing then Ok None else
    do sh <- get s party; do th <- get t party; do tp <- get tapes party;
    do pp <- party_points rs sh th tp; Ok (Some pp)) (seq 0 (num_parties I));
  do shares <- mapM (fun party =>
    if party =? missing then Ok [] else do tp <- get tapes party; P_share rs party tp) (seq 0 (num_parties I));
  do shares <- (if 0 =? missing then Ok shares else adjust_first (p_P_delta proof) shares);
  Ok (pts, shares).

(** the recomputed views of one repetition, banquet.cpp:1103-1158 *)
Definition verify_phase5 (pre1 pre2 : list (list N)) (R : N) (proof : rep_proof) (missing : nat)
  (ph3 : list (option (list (list N) * list (list N))) * list (list N)) : res (view * list view) :=
  do lag1 <- lagrange_at_R pre1 (m2 I + 1) R;
  do lag2 <- lagrange_at_R pre2 (2 * m2 I + 1) R;
  do known <- mapM (fun party =>
    if party =? missing then Ok None else
    do pts <- get (fst ph3) party; do sh <- get (snd ph3) party;
    match pts with
    | None => UB OutOfBounds            (* s_prime of the missing party is empty *)
    | Some pts => do v <- party_view lag1 lag2 pts sh; Ok (Some v)
    end) (seq 0 (num_parties I));
  do a <- mapM (get (p_S_at_R proof)) (seq 0 (m1 I));
  do b <- mapM (get (p_T_at_R proof)) (seq 0 (m1 I));
  let sub := fun (sel : view -> list N) (j : nat) (x : N) =>
    foldM (fun acc ov => match ov with None => Ok acc | Some v => do y <- get (sel v) j; Ok (gadd acc y) end) known x in
  do am <- mapM (fun j => do x <- get (p_S_at_R proof) j; sub v_a j x) (seq 0 (m1 I));
  do bm <- mapM (fun j => do x <- get (p_T_at_R proof) j; sub v_b j x) (seq 0 (m1 I));
  let cm := fold_left (fun acc ov => match ov with None => acc | Some v => gadd acc (v_c v) end) known (p_P_at_R proof) in
  let views := map (fun ov => match ov with None => ((am, bm), cm) | Some v => v end) known in
  Ok (((a, b), p_P_at_R proof), views).

(** the last check of one repetition, banquet.cpp:1182-1192 *)
Definition verify_relation (proof : rep_proof) : res bool :=
  do accum <- accumulate (p_S_at_R proof) (p_T_at_R proof); Ok (accum =? p_P_at_R proof)%N.
Fixpoint verify_relations (proofs : list rep_proof) (reps : list nat) : res bool :=
  match reps with
  | [] => Ok true
  | rep :: reps' =>
    do proof <- get proofs rep; do ok <- verify_relation proof;
    if ok then verify_relations proofs reps' else Ok false
  end.

(** everything banquet_verify recomputes before its checks, banquet.cpp:785-1173:
    the hash contexts of h_1 and h_3 *)
Definition verify_contexts (fuel : nat) (garb : nat -> N) (pk : bytes) (sig : signature) (msg : bytes) : res (hctx * hctx) :=
  let reps := seq 0 (num_rounds I) in
  do pt <- read pk 0 (pt_size I);
  do ct <- read pk (pt_size I) (pt_size I);
  do h2 <- phase_2_commitment (s_salt sig) (s_h1 sig) (map p_P_delta (s_proofs sig));
  do rss <- phase_1_expand (s_h1 sig);
  do Rs <- phase_2_expand fuel h2 (get_first_n_field_elements c (m2 I));
  do missing <- phase_3_expand fuel garb (s_h3 sig);
  do setup <- mapM (fun rep =>
    do proof <- get (s_proofs sig) rep; do m <- get missing rep; verify_setup (s_salt sig) proof rep m) reps;
  let coms := map fst setup in
  let tapes := map snd setup in
  do ph1 <- mapM (fun rep =>
    do proof <- get (s_proofs sig) rep; do m <- get missing rep; do tp <- get tapes rep;
    verify_phase1 pt ct proof m tp) reps;
  do pre1 <- precompute_lagrange_polynomials ops (get_first_n_field_elements c (m2 I + 1));
  do pre2 <- precompute_lagrange_polynomials ops (get_first_n_field_elements c (2 * m2 I + 1));
  do ph3 <- mapM (fun rep =>
    do proof <- get (s_proofs sig) rep; do m <- get missing rep; do rs <- get rss rep; do tp <- get tapes rep;
    do p1 <- get ph1 rep;
    verify_phase3 rs proof m (fst (fst p1)) (snd (fst p1)) tp) reps;
  do ph5 <- mapM (fun rep =>
    do proof <- get (s_proofs sig) rep; do m <- get missing rep; do R <- get Rs rep; do p3 <- get ph3 rep;
    verify_phase5 pre1 pre2 R proof m p3) reps;
  do ctx1 <- phase_1_ctx (s_salt sig) pk msg coms (map p_sk_delta (s_proofs sig)) (map p_t_delta (s_proofs sig)) (map snd ph1);
  do ctx3 <- phase_3_ctx (s_salt sig) h2 (map fst ph5) (map snd ph5);
  Ok (ctx1, ctx3).

(** banquet_verify after init_extension_field, banquet.cpp:785-1194 *)
Definition verify_body (fuel : nat) (garb : nat -> N) (pk : bytes) (sig : signature) (msg : bytes) : res bool :=
  do (ctx1, ctx3) <- verify_contexts fuel garb pk sig msg;
  let h1 := fst (hash_squeeze H (hash_final ctx1) (digest_size I)) in
  let h3 := fst (hash_squeeze H (hash_final ctx3) (digest_size I)) in
  do e1 <- memcmp_eq h1 (s_h1 sig) (length h1);
  if negb e1 then Ok false else
  do e3 <- memcmp_eq h3 (s_h3 sig) (length h3);
  if negb e3 then Ok false else
  verify_relations (s_proofs sig) (seq 0 (num_rounds I)).

End Hashing.

(** ** The API: functions of the process state (the static members of GF2E) *)

(** init_extension_field followed by the rest of the function *)
Definition with_field {A} (st : fstate) (lam : nat) (f : fctx -> res A) : fstate * res A :=
  match st_init st lam with
  | (Some c, Ok tt) => (Some c, f c)
  | (st', Ok tt) => (st', Throw EBadFunctionCall)      (* unreachable: a successful init sets the field *)
  | (st', Throw e) => (st', Throw e)
  | (st', UB r) => (st', UB r)
  | (st', OutOfFuel) => (st', OutOfFuel)
  end.
(** banquet_sign, banquet.cpp:290-775 *)
Definition sign (H : oracle) (fuel : nat) (garb : nat -> N) (st : fstate) (I : instance) (kp : keypair) (msg : bytes)
  : fstate * res signature :=
  with_field st (lambda I) (fun c => sign_body H I c fuel garb kp msg).
(** banquet_verify, banquet.cpp:777-1194 *)
Definition verify (H : oracle) (fuel : nat) (garb : nat -> N) (st : fstate) (I : instance) (pk : bytes) (sig : signature) (msg : bytes)
  : fstate * res bool :=
  with_field st (lambda I) (fun c => verify_body H I c fuel garb pk sig msg).

(** banquet_serialize_signature, banquet.cpp:1196-1236; to_bytes uses the static byte_size *)
Definition serialize_proof (st : fstate) (I : instance) (p : rep_proof) : res bytes :=
  let tb := to_bytes (st_byte_size st) in
  do ds <- mapM (fun k => do x <- get (p_P_delta p) k; Ok (tb x)) (seq 0 (m2 I + 1));
  do ss <- mapM (fun j => do x <- get (p_S_at_R p) j; Ok (tb x)) (seq 0 (m1 I));
  do ts <- mapM (fun j => do x <- get (p_T_at_R p) j; Ok (tb x)) (seq 0 (m1 I));
  Ok (concat (fst (p_reveal p)) ++ p_C p ++ p_sk_delta p ++ p_t_delta p ++
      concat ds ++ tb (p_P_at_R p) ++ concat ss ++ concat ts).
Definition serialize (st : fstate) (I : instance) (sig : signature) : res bytes :=
  do ps <- mapM (fun rep => do p <- get (s_proofs sig) rep; serialize_proof st I p) (seq 0 (num_rounds I));
  Ok (s_salt sig ++ s_h1 sig ++ s_h3 sig ++ concat ps).

(** banquet_deserialize_signature, banquet.cpp:1238-1320: [take] is memcpy(buffer, serialized + current_offset, n);
    current_offset += n *)
Definition take (ser : bytes) (n off : nat) : res (bytes * nat) := do b <- read ser off n; Ok (b, off + n).
Fixpoint take_many {A} (f : nat -> res (A * nat)) (n off : nat) : res (list A * nat) :=
  match n with
  | O => Ok ([], off)
  | S n' => do (x, off) <- f off; do (xs, off) <- take_many f n' off; Ok (x :: xs, off)
  end.
(** a lambda-sized buffer, then GF2E::from_bytes, which reads the static byte_size bytes *)
Definition take_elem (st : fstate) (I : instance) (ser : bytes) (off : nat) : res (N * nat) :=
  do (buffer, off) <- take ser (lambda I) off;
  do b <- read buffer 0 (st_byte_size st);
  Ok (from_bytes b, off).
Definition take_proof (st : fstate) (I : instance) (ser : bytes) (missing off : nat) : res (rep_proof * nat) :=
  do (entries, off) <- take_many (take ser (seed_size I)) (ceil_log2_nat (num_parties I)) off;
  do (com, off) <- take ser (digest_size I) off;
  do (sk, off) <- take ser (key_size (i_aes I)) off;
  do (td, off) <- take ser (num_sboxes (i_aes I)) off;
  do (pd, off) <- take_many (take_elem st I ser) (m2 I + 1) off;
  do (pr, off) <- take_elem st I ser off;
  do (ss, off) <- take_many (take_elem st I ser) (m1 I) off;
  do (ts, off) <- take_many (take_elem st I ser) (m1 I) off;
  Ok (mkProof (entries, missing) com sk td pd pr ss ts, off).
Fixpoint take_proofs (st : fstate) (I : instance) (ser : bytes) (missing : list nat) (off : nat) : res (list rep_proof * nat) :=
  match missing with
  | [] => Ok ([], off)
  | m :: ms => do (p, off) <- take_proof st I ser m off; do (ps, off) <- take_proofs st I ser ms off; Ok (p :: ps, off)
  end.
Definition deserialize (H : oracle) (fuel : nat) (garb : nat -> N) (st : fstate) (I : instance) (ser : bytes) : res signature :=
  do (salt, off) <- take ser SALT_SIZE 0;
  do (h1, off) <- take ser (digest_size I) off;
  do (h3, off) <- take ser (digest_size I) off;
  do missing <- phase_3_expand H I fuel garb h3;
  do (proofs, off) <- take_proofs st I ser missing off;
  Ok (mkSig salt h1 h3 proofs).

(** ** banquet_keygen, banquet.cpp:260-288 *)
(** The random source (randomness.c): call number i delivers some bytes to the front of the buffer and reports success;
    a failing call may deliver none or fewer than asked for. *)
Definition rng := nat -> bool * bytes.
(** rand_bytes(buf.data(), buf.size()) with the result ignored, as at banquet.cpp:266-267 *)
Definition rand_bytes (r : rng) (i : nat) (buf : bytes) : res bytes := copy_into (snd (r i)) buf.
Fixpoint keygen_loop (fuel : nat) (I : instance) (r : rng) (i : nat) (key pt : bytes) : res keypair :=
  match fuel with
  | O => OutOfFuel
  | S f =>
    do key <- rand_bytes r i key;
    do pt <- rand_bytes r (i + 1) pt;
    do o <- aes_plain (key_size (i_aes I)) key pt;
    match o with
    | Some ct => Ok (key, pt ++ ct)
    | None => keygen_loop f I r (i + 2) key pt
    end
  end.
Definition keygen (fuel : nat) (I : instance) (r : rng) : res keypair :=
  keygen_loop fuel I r 0 (zeros (key_size (i_aes I))) (zeros (pt_size I)).
