(** banquet_sign and banquet_verify with their buffers: the commitments, tapes, shares of the key, of the S-box inputs and
    outputs, the output broadcasts and the shares of a and b of all repetitions and parties lie in one flat vector each
    (RepContainer, types.h:46-77), and every write goes through a span of it.  A write is bounded by the vector, not by the
    span: gsl-lite's span iterators are pointers, and std::copy and std::transform write as many elements as their source has.
    BanquetModel has separate lists for every repetition and party instead, where a source longer than its slot is undefined
    behaviour.
    Simplifications: the elements of one slot of a_shares or b_shares are written at once (they are written one by one in a
    loop over exactly that slot); a repetition's shares are read before the loop over the parties that uses them (nothing
    writes to these vectors in between); other vectors (one std::vector each) are lists as in BanquetModel. *)
From Coq Require Import Arith NArith List Bool.
From Verif Require Import Prelude FieldModel PolyModel Instances HashModel TreeModel AesModel ContainerModel BanquetModel.
Import ListNotations.

(** std::copy(begin src, end src, begin span) for the span of (rep, party) *)
Definition m_copy {A} (c : container A) (rep party : nat) (src : list A) : res (container A) := k_put c rep party src.
(** std::transform(begin src, end src, begin span, begin span, bit_xor) *)
Definition m_xor (c : container N) (rep party : nat) (src : bytes) : res (container N) :=
  do old <- read (k_data c) (k_offset c rep party) (length src); k_put c rep party (xorl src old).
(** the two party loops "party += 4" and "party++" over a buffer, banquet.cpp:344-364, 838-858, 866-881 *)
Definition loop4 {S} (n : nat) (f4 f1 : S -> nat -> res S) (s : S) : res S :=
  do s <- foldM f4 (map (fun b => 4 * b) (seq 0 (n / 4))) s;
  foldM f1 (seq (4 * (n / 4)) (n - 4 * (n / 4))) s.
(** the output spans of hash_squeeze_x4_4 are those of parties [idx 0], ..., [idx 3] *)
Definition m_copy4 (c : container N) (rep : nat) (idx : nat -> nat) (vs : list bytes) : res (container N) :=
  foldM (fun c i => do v <- get vs i; m_copy c rep (idx i) v) (seq 0 4) c.
(** parties[0..3] of generate_4_tapes, tape.cpp:31-39, are uint16_t, also as indices of spans *)
Definition u16 (x : nat) : nat := N.to_nat (N.of_nat x mod 65536).

Section Mem.
Variable H : oracle.
Variable I : instance.
Local Notation n := (num_parties I).
Local Notation T := (num_rounds I).
Local Notation ks := (key_size (i_aes I)).
Local Notation sb := (num_sboxes (i_aes I)).

(** RandomTapes::get_bytes, tape.cpp:56-60 *)
Definition m_tape (tapes : container N) (rep party off len : nat) : res bytes := do tp <- k_get tapes rep party; read tp off len.
(** phase_1_commitment, banquet.cpp:87-118, the hash context before hash_final *)
Definition m_phase_1_ctx (salt pk msg : bytes) (coms : container N) (key_deltas t_deltas : list bytes) (bcasts : container N) : res hctx :=
  do parts <- mapM (fun rep =>
    do ps <- mapM (fun party => do com <- k_get coms rep party; do b <- k_get bcasts rep party; Ok (com ++ b)) (seq 0 n);
    do kd <- get key_deltas rep; do td <- get t_deltas rep;
    Ok (concat ps ++ kd ++ td)) (seq 0 T);
  let ctx := hash_init_prefix (digest_size I) HASH_PREFIX_1 in
  let ctx := hash_update ctx salt in
  let ctx := hash_update ctx pk in
  let ctx := hash_update ctx msg in
  Ok (hash_update ctx (concat parts)).

Variable c : fctx.
Local Notation ops := (gops c).

(** phase_3_commitment, banquet.cpp:200-234; [opened]: c, a and b of each repetition *)
Definition m_phase_3_ctx (salt h2 : bytes) (opened : list view) (c_shares : list (list N)) (a_shares b_shares : container N) : res hctx :=
  do parts <- mapM (fun rep =>
    do o <- get opened rep; do cs <- get c_shares rep;
    do c0 <- elem_bytes I c (v_c o);
    do cp <- mapM (fun party => do x <- get cs party; elem_bytes I c x) (seq 0 n);
    do js <- mapM (fun j =>
      do a <- get (v_a o) j; do a' <- elem_bytes I c a;
      do b <- get (v_b o) j; do b' <- elem_bytes I c b;
      do ps <- mapM (fun party =>
        do ra <- k_get a_shares rep party; do x <- get ra j; do x' <- elem_bytes I c x;
        do rb <- k_get b_shares rep party; do y <- get rb j; do y' <- elem_bytes I c y; Ok (x' ++ y')) (seq 0 n);
      Ok (a' ++ b' ++ concat ps)) (seq 0 (m1 I));
    Ok (c0 ++ concat cp ++ concat js)) (seq 0 T);
  let ctx := hash_init_prefix (digest_size I) HASH_PREFIX_3 in
  let ctx := hash_update ctx salt in
  let ctx := hash_update ctx h2 in
  Ok (hash_update ctx (concat parts)).

(** ** banquet_verify *)

(** one repetition of banquet.cpp:825-882: (party_seed_commitments, random_tapes) *)
Definition m_verify_setup (salt : bytes) (proof : rep_proof) (rep missing : nat) (m : container N * container N)
  : res (container N * container N) :=
  let '(coms, tapes) := m in
  if negb (missing =? snd (p_reveal proof)) then Throw EModifiedSig else
  do t <- seed_tree_rev H salt rep (p_reveal proof) n;
  let dummy := zeros (seed_size I) in
  let leaf_or := fun p => do o <- get_leaf t p; Ok (value_or o dummy) in
  do coms <- loop4 n
    (fun coms p => do s0 <- leaf_or p; do s1 <- leaf_or (p + 1); do s2 <- leaf_or (p + 2); do s3 <- leaf_or (p + 3);
                   do vs <- commit_to_4_party_seeds H I s0 s1 s2 s3 salt rep p; m_copy4 coms rep (fun i => p + i) vs)
    (fun coms p => if p =? missing then Ok coms
                   else do o <- get_leaf t p; do s <- value o; m_copy coms rep p (commit_to_party_seed H I s salt rep p)) coms;
  do coms <- m_copy coms rep missing (p_C proof);
  do tapes <- loop4 n
    (fun tapes p => do s0 <- leaf_or p; do s1 <- leaf_or (p + 1); do s2 <- leaf_or (p + 2); do s3 <- leaf_or (p + 3);
                    do vs <- generate_4_tapes H I salt rep p s0 s1 s2 s3; m_copy4 tapes rep (fun i => u16 (p + i)) vs)
    (fun tapes p => do s <- leaf_or p; m_copy tapes rep p (generate_tape H I salt rep p s)) tapes;
  Ok (coms, tapes).

(** rep_shared_keys, rep_shared_t, rep_shared_s, rep_output_broadcasts *)
Record shares : Type := mkShares { h_keys : container N; h_t : container N; h_s : container N; h_bcast : container N }.
(** the shares of all parties of a repetition from their tapes, banquet.cpp:900-907, 916-923 *)
Definition m_tape_shares (tapes : container N) (rep off len : nat) (dst : container N) : res (container N) :=
  foldM (fun dst party => do x <- m_tape tapes rep party off len; m_copy dst rep party x) (seq 0 n) dst.
(** aes_N_s_shares on the spans of get_repetition, banquet.cpp:430-447, 930-947 *)
Definition m_aes (pt : bytes) (rep : nat) (h : shares) : res shares :=
  do keys <- k_get_repetition (h_keys h) rep;
  do ts <- k_get_repetition (h_t h) rep;
  do out <- aes_s_shares ks keys ts pt sb;
  do bcast <- foldM (fun d party => do o <- get out party; m_copy d rep party (fst o)) (seq 0 n) (h_bcast h);
  do s <- foldM (fun d party => do o <- get out party; m_copy d rep party (snd o)) (seq 0 n) (h_s h);
  Ok (mkShares (h_keys h) (h_t h) s bcast).
(** one repetition of banquet.cpp:897-960 *)
Definition m_verify_phase1 (pt ct : bytes) (proof : rep_proof) (missing : nat) (tapes : container N) (rep : nat) (h : shares) : res shares :=
  do keys <- m_tape_shares tapes rep 0 ks (h_keys h);
  do keys <- m_xor keys rep 0 (p_sk_delta proof);
  do ts <- m_tape_shares tapes rep ks sb (h_t h);
  do ts <- m_xor ts rep 0 (p_t_delta proof);
  do h <- m_aes pt rep (mkShares keys ts (h_s h) (h_bcast h));
  do bcast <- m_copy (h_bcast h) rep missing ct;
  do bcast <- foldM (fun d party => if party =? missing then Ok d else do b <- k_get d rep party; m_xor d rep missing b) (seq 0 n) bcast;
  Ok (mkShares (h_keys h) (h_t h) (h_s h) bcast).

(** one repetition of banquet.cpp:1103-1158: c_shares[repetition], a_shares and b_shares *)
Definition m_verify_phase5 (pre1 pre2 : list (list N)) (R : N) (proof : rep_proof) (missing : nat)
  (ph3 : list (option (list (list N) * list (list N))) * list (list N)) (rep : nat) (m : container N * container N)
  : res (view * list N * (container N * container N)) :=
  let '(a_shares, b_shares) := m in
  do lag1 <- lagrange_at_R c pre1 (m2 I + 1) R;
  do lag2 <- lagrange_at_R c pre2 (2 * m2 I + 1) R;
  do (a_shares, b_shares, cs) <- foldM (fun m party =>
    if party =? missing then Ok m else
    let '(a_shares, b_shares, cs) := m in
    do pts <- get (fst ph3) party; do sh <- get (snd ph3) party;
    match pts with
    | None => UB OutOfBounds
    | Some pts =>
      do v <- party_view I c lag1 lag2 pts sh;
      do a_shares <- m_copy a_shares rep party (v_a v);
      do b_shares <- m_copy b_shares rep party (v_b v);
      do cs <- set cs party (v_c v);
      Ok (a_shares, b_shares, cs)
    end) (seq 0 n) (a_shares, b_shares, repeat 0%N n);
  do cs <- set cs missing (p_P_at_R proof);
  do a <- mapM (get (p_S_at_R proof)) (seq 0 (m1 I));
  do b <- mapM (get (p_T_at_R proof)) (seq 0 (m1 I));
  do a_shares <- m_copy a_shares rep missing a;
  do b_shares <- m_copy b_shares rep missing b;
  do (a_shares, b_shares, cs) <- foldM (fun m party =>
    if party =? missing then Ok m else
    let '(a_shares, b_shares, cs) := m in
    do x <- get cs missing; do y <- get cs party; do cs <- set cs missing (gadd x y);
    do am <- k_get a_shares rep missing; do ap <- k_get a_shares rep party; do a_shares <- m_copy a_shares rep missing (xorl am ap);
    do bm <- k_get b_shares rep missing; do bp <- k_get b_shares rep party; do b_shares <- m_copy b_shares rep missing (xorl bm bp);
    Ok (a_shares, b_shares, cs)) (seq 0 n) (a_shares, b_shares, cs);
  Ok (((a, b), p_P_at_R proof), cs, (a_shares, b_shares)).

(** the hash contexts of h_1 and h_3 that banquet_verify recomputes, banquet.cpp:785-1173 *)
Definition m_verify_contexts (fuel : nat) (garb : nat -> N) (pk : bytes) (sig : signature) (msg : bytes) : res (hctx * hctx) :=
  do pt <- read pk 0 (pt_size I);
  do ct <- read pk (pt_size I) (pt_size I);
  let coms := k_new 0%N T n (digest_size I) in
  let tapes := k_new 0%N T n (tape_size I) in
  do h2 <- phase_2_commitment H I c (s_salt sig) (s_h1 sig) (map p_P_delta (s_proofs sig));
  do rss <- phase_1_expand H I c (s_h1 sig);
  do Rs <- phase_2_expand H I c fuel h2 (get_first_n_field_elements c (m2 I));
  do missing <- phase_3_expand H I fuel garb (s_h3 sig);
  do (coms, tapes) <- foldM (fun m rep =>
    do proof <- get (s_proofs sig) rep; do mi <- get missing rep; m_verify_setup (s_salt sig) proof rep mi m) (seq 0 T) (coms, tapes);
  let h := mkShares (k_new 0%N T n ks) (k_new 0%N T n sb) (k_new 0%N T n sb) (k_new 0%N T n (pt_size I)) in
  do h <- foldM (fun h rep =>
    do proof <- get (s_proofs sig) rep; do mi <- get missing rep; m_verify_phase1 pt ct proof mi tapes rep h) (seq 0 T) h;
  do pre1 <- precompute_lagrange_polynomials ops (get_first_n_field_elements c (m2 I + 1));
  do pre2 <- precompute_lagrange_polynomials ops (get_first_n_field_elements c (2 * m2 I + 1));
  do ph3 <- mapM (fun rep =>
    do proof <- get (s_proofs sig) rep; do mi <- get missing rep; do rs <- get rss rep;
    do s <- k_get_repetition (h_s h) rep; do t <- k_get_repetition (h_t h) rep; do tp <- k_get_repetition tapes rep;
    verify_phase3 I c rs proof mi s t tp) (seq 0 T);
  do (opened, c_shares, ab) <- foldM (fun m rep =>
    let '(opened, c_shares, ab) := m in
    do proof <- get (s_proofs sig) rep; do mi <- get missing rep; do R <- get Rs rep; do p3 <- get ph3 rep;
    do (o, cs, ab) <- m_verify_phase5 pre1 pre2 R proof mi p3 rep ab;
    Ok (opened ++ [o], c_shares ++ [cs], ab)) (seq 0 T) ([], [], (k_new 0%N T n (m1 I), k_new 0%N T n (m1 I)));
  do ctx1 <- m_phase_1_ctx (s_salt sig) pk msg coms (map p_sk_delta (s_proofs sig)) (map p_t_delta (s_proofs sig)) (h_bcast h);
  do ctx3 <- m_phase_3_ctx (s_salt sig) h2 opened c_shares (fst ab) (snd ab);
  Ok (ctx1, ctx3).
(** banquet_verify after init_extension_field, banquet.cpp:785-1194 *)
Definition m_verify_body (fuel : nat) (garb : nat -> N) (pk : bytes) (sig : signature) (msg : bytes) : res bool :=
  do (ctx1, ctx3) <- m_verify_contexts fuel garb pk sig msg;
  let h1 := fst (hash_squeeze H (hash_final ctx1) (digest_size I)) in
  let h3 := fst (hash_squeeze H (hash_final ctx3) (digest_size I)) in
  do e1 <- memcmp_eq h1 (s_h1 sig) (length h1);
  if negb e1 then Ok false else
  do e3 <- memcmp_eq h3 (s_h3 sig) (length h3);
  if negb e3 then Ok false else
  verify_relations I c (s_proofs sig) (seq 0 T).

(** ** banquet_sign *)

(** one repetition of banquet.cpp:337-369 *)
Definition m_sign_setup (salt : bytes) (rep : nat) (master : bytes) (m : container N * container N) : res (tree * (container N * container N)) :=
  let '(coms, tapes) := m in
  do t <- seed_tree H salt rep master n;
  let leaf := fun p => do o <- get_leaf t p; value o in
  do coms <- loop4 n
    (fun coms p => do s0 <- leaf p; do s1 <- leaf (p + 1); do s2 <- leaf (p + 2); do s3 <- leaf (p + 3);
                   do vs <- commit_to_4_party_seeds H I s0 s1 s2 s3 salt rep p; m_copy4 coms rep (fun i => p + i) vs)
    (fun coms p => do s <- leaf p; m_copy coms rep p (commit_to_party_seed H I s salt rep p)) coms;
  do tapes <- foldM (fun tapes p => do s <- leaf p; m_copy tapes rep p (generate_tape H I salt rep p s)) (seq 0 n) tapes;
  Ok (t, (coms, tapes)).
(** the sharing of a secret, banquet.cpp:388-406, 409-426: the offset and the shares *)
Definition m_share_secret (secret : bytes) (tapes : container N) (rep off len : nat) (dst : container N) : res (bytes * container N) :=
  do (delta, dst) <- foldM (fun m party =>
    let '(delta, dst) := m in
    do x <- m_tape tapes rep party off len;
    do dst <- m_copy dst rep party x;
    do sh <- k_get dst rep party;
    do delta <- xor_into sh delta;
    Ok (delta, dst)) (seq 0 n) (secret, dst);
  do dst <- m_xor dst rep 0 delta;
  Ok (delta, dst).
(** one repetition of banquet.cpp:386-461 *)
Definition m_sign_phase1 (key t_vals pt : bytes) (tapes : container N) (rep : nat) (h : shares) : res (bytes * bytes * shares) :=
  do (kd, keys) <- m_share_secret key tapes rep 0 ks (h_keys h);
  do (td, ts) <- m_share_secret t_vals tapes rep ks sb (h_t h);
  do h <- m_aes pt rep (mkShares keys ts (h_s h) (h_bcast h));
  Ok (kd, td, h).
(** one repetition of banquet.cpp:688-724 *)
Definition m_sign_phase5 (pre1 pre2 : list (list N)) (R : N) (ph3 : rep3) (rep : nat) (m : container N * container N)
  : res (view * list N * (container N * container N)) :=
  let '(a_shares, b_shares) := m in
  do lag1 <- lagrange_at_R c pre1 (m2 I + 1) R;
  do lag2 <- lagrange_at_R c pre2 (2 * m2 I + 1) R;
  do (a_shares, b_shares, cs) <- foldM (fun m party =>
    let '(a_shares, b_shares, cs) := m in
    do pts <- get (r3_pts ph3) party; do sh <- get (r3_shares ph3) party;
    do v <- party_view I c lag1 lag2 pts sh;
    do a_shares <- m_copy a_shares rep party (v_a v);
    do b_shares <- m_copy b_shares rep party (v_b v);
    do cs <- set cs party (v_c v);
    Ok (a_shares, b_shares, cs)) (seq 0 n) (a_shares, b_shares, repeat 0%N n);
  do (a, b, x) <- foldM (fun m party =>
    let '(a, b, x) := m in
    do y <- get cs party;
    do ap <- k_get a_shares rep party; do bp <- k_get b_shares rep party;
    Ok (xorl a ap, xorl b bp, gadd x y)) (seq 0 n) (repeat 0%N (m1 I), repeat 0%N (m1 I), 0%N);
  Ok (((a, b), x), cs, (a_shares, b_shares)).
(** banquet_sign after init_extension_field, banquet.cpp:296-775 *)
Definition m_sign_body (fuel : nat) (garb : nat -> N) (kp : keypair) (msg : bytes) : res signature :=
  let key := fst kp in
  do pt <- read (snd kp) 0 (pt_size I);
  do ct <- read (snd kp) (pt_size I) (pt_size I);
  do sv <- aes_with_sbox_output ks key pt;
  let s_vals := fst (fst sv) in
  let t_vals := snd (fst sv) in
  let '(salt, seeds) := generate_salt_and_seeds H I kp msg in
  do (trees, (coms, tapes)) <- foldM (fun m rep =>
    do master <- get seeds rep; do (t, ct) <- m_sign_setup salt rep master (snd m); Ok (fst m ++ [t], ct)) (seq 0 T)
    ([], (k_new 0%N T n (digest_size I), k_new 0%N T n (tape_size I)));
  do (kds, tds, h) <- foldM (fun m rep =>
    let '(kds, tds, h) := m in
    do (kd, td, h) <- m_sign_phase1 key t_vals pt tapes rep h; Ok (kds ++ [kd], tds ++ [td], h)) (seq 0 T)
    ([], [], mkShares (k_new 0%N T n ks) (k_new 0%N T n sb) (k_new 0%N T n sb) (k_new 0%N T n (pt_size I)));
  do ctx1 <- m_phase_1_ctx salt (snd kp) msg coms kds tds (h_bcast h);
  let h1 := fst (hash_squeeze H (hash_final ctx1) (digest_size I)) in
  do rss <- phase_1_expand H I c h1;
  let xs1 := get_first_n_field_elements c (m2 I + 1) in
  do pre1 <- precompute_lagrange_polynomials ops xs1;
  let xs2 := get_first_n_field_elements c (2 * m2 I + 1) in
  do pre2 <- precompute_lagrange_polynomials ops xs2;
  do last_lagrange <- get pre1 (m2 I);
  do last_sq <- vmul ops last_lagrange last_lagrange;
  do prods <- mapM (sbox_products I c pre1 last_lagrange s_vals t_vals) (seq 0 (m1 I));
  do ph3 <- mapM (fun rep =>
    do rs <- get rss rep; do s <- k_get_repetition (h_s h) rep; do t <- k_get_repetition (h_t h) rep; do tp <- k_get_repetition tapes rep;
    sign_phase3 I c xs2 prods last_sq rs (mkRep1 [] [] [] t s []) tp) (seq 0 T);
  do h2 <- phase_2_commitment H I c salt h1 (map r3_delta ph3);
  do Rs <- phase_2_expand H I c fuel h2 (get_first_n_field_elements c (m2 I));
  do (opened, c_shares, ab) <- foldM (fun m rep =>
    let '(opened, c_shares, ab) := m in
    do R <- get Rs rep; do p3 <- get ph3 rep;
    do (o, cs, ab) <- m_sign_phase5 pre1 pre2 R p3 rep ab;
    Ok (opened ++ [o], c_shares ++ [cs], ab)) (seq 0 T) ([], [], (k_new 0%N T n (m1 I), k_new 0%N T n (m1 I)));
  do ctx3 <- m_phase_3_ctx salt h2 opened c_shares (fst ab) (snd ab);
  let h3 := fst (hash_squeeze H (hash_final ctx3) (digest_size I)) in
  do missing <- phase_3_expand H I fuel garb h3;
  do reveals <- mapM (fun rep => do t <- get trees rep; do mi <- get missing rep; reveal_all_but t mi) (seq 0 T);
  do proofs <- mapM (fun rep =>
    do mi <- get missing rep; do com <- k_get coms rep mi;
    do com <- copy_into com (zeros (digest_size I));
    do rv <- get reveals rep; do kd <- get kds rep; do td <- get tds rep; do p3 <- get ph3 rep; do o <- get opened rep;
    do accum <- accumulate I c (v_a o) (v_b o);
    if (accum =? v_c o)%N
    then Ok (mkProof rv com kd td (r3_delta p3) (v_c o) (v_a o) (v_b o))
    else Throw ESanity) (seq 0 T);
  Ok (mkSig salt h1 h3 proofs).
End Mem.

(** banquet_sign and banquet_verify, banquet.cpp:290-1194 *)
Definition m_sign (H : oracle) (fuel : nat) (garb : nat -> N) (st : fstate) (I : instance) (kp : keypair) (msg : bytes) : fstate * res signature :=
  with_field st (lambda I) (fun c => m_sign_body H I c fuel garb kp msg).
Definition m_verify (H : oracle) (fuel : nat) (garb : nat -> N) (st : fstate) (I : instance) (pk : bytes) (sig : signature) (msg : bytes) : fstate * res bool :=
  with_field st (lambda I) (fun c => m_verify_body H I c fuel garb pk sig msg).
