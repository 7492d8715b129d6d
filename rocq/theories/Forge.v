(** A procedure that makes signatures from public data alone.  It calls the code's own building blocks (the model of
    banquet.cpp in BanquetModel) with chosen arguments; it is given the public key, the message, a salt and seeds, and
    no secret key.  It is not a model of code in /repo: it is the witness for the refutation in PropForge. *)
From Coq Require Import Arith NArith List Bool.
From Verif Require Import Prelude FieldModel PolyModel Instances HashModel TreeModel AesSpec AesModel AesApi BanquetModel.
Import ListNotations.

(** the inverse of the linear part of the S-box, and of the byte order applied by restore_t_shares (aes.cpp:364-379) *)
Definition unaffine (b : N) : N := N.lxor (N.lxor (rotl8 b 1) (rotl8 b 3)) (rotl8 b 6).
Definition untr (y : bytes) : bytes := map unaffine (shuffle_epi8 y [0;4;8;12;13;1;5;9;10;14;2;6;7;11;15;3]).
(** S-box outputs that are zero except in the last round of each block, where they make the block x *)
Definition fake_last (ks : nat) (x : bytes) : bytes :=
  if ks =? 16 then zeros 184 ++ untr x
  else if ks =? 24 then zeros 208 ++ untr (firstn 16 x) ++ zeros 176 ++ untr (skipn 16 x)
  else zeros 260 ++ untr (firstn 16 x) ++ zeros 208 ++ untr (skipn 16 x).

Section Forge.
Variables (H : oracle) (I : instance) (c : fctx).
Notation ops := (gops c).

(** S-box outputs with which the (inconsistent) evaluation of the cipher under the zero key ends in ct: evaluate it with
    one party and S-box outputs zero, and correct the last round *)
Definition fake_t (pt ct : bytes) : res bytes :=
  do out <- aes_s_shares (key_size (i_aes I)) [zeros (key_size (i_aes I))] [zeros (num_sboxes (i_aes I))] pt (num_sboxes (i_aes I));
  do o <- get out 0;
  do d <- xor_into (fst o) ct;
  Ok (fake_last (key_size (i_aes I)) d).

(** the points of all parties and their shares of P before the correction *)
Definition forge_points (rs : list N) (ph1 : rep1) (tapes : list bytes) : res (list (list (list N) * list (list N)) * list (list N)) :=
  do pts <- mapM (fun party =>
    do s <- get (r1_s ph1) party; do t <- get (r1_t ph1) party; do tp <- get tapes party;
    party_points I c rs s t tp) (seq 0 (num_parties I));
  do shares <- mapM (fun party => do tp <- get tapes party; P_share I c rs party tp) (seq 0 (num_parties I));
  Ok (pts, shares).

(** once R is known: the last correction that makes the opened values satisfy the checked relation *)
Definition forge_rep (pre1 pre2 : list (list N)) (R : N) (q : list (list (list N) * list (list N)) * list (list N))
  : res (list N * (view * list view)) :=
  do w <- sign_phase5 I c pre1 pre2 R (mkRep3 (fst q) [] (snd q) []);
  do want <- accumulate I c (v_a (fst w)) (v_b (fst w));
  do lag2 <- lagrange_at_R c pre2 (2 * m2 I + 1) R;
  do l <- get lag2 (2 * m2 I);
  do li <- ginverse c l;
  let deltas := repeat 0%N (m2 I) ++ [gmul c li (gadd want (v_c (fst w)))] in
  do shares <- adjust_first I deltas (snd q);
  do v <- sign_phase5 I c pre1 pre2 R (mkRep3 (fst q) [] shares deltas);
  Ok (deltas, v).

(** up to the evaluation points: what is committed to before they are known *)
Record committed : Type := mkCommitted {
  f_trees : list tree; f_coms : list (list bytes); f_ph1 : list rep1; f_h1 : bytes; f_rss : list (list N); f_tapes : list (list bytes); f_h2 : bytes; f_Rs : list N }.
Definition forge_commit (fuel : nat) (pk msg salt : bytes) (seeds : list bytes) : res committed :=
  let reps := seq 0 (num_rounds I) in
  do pt <- read pk 0 (pt_size I);
  do ct <- read pk (pt_size I) (pt_size I);
  do t_vals <- fake_t pt ct;
  do setup <- mapM (fun rep => do master <- get seeds rep; sign_setup H I salt rep master) reps;
  let trees := map (fun x => fst (fst x)) setup in
  let coms := map (fun x => snd (fst x)) setup in
  let tapes := map snd setup in
  do ph1 <- mapM (fun rep => do tp <- get tapes rep; sign_phase1 I (zeros (key_size (i_aes I))) t_vals pt tp) reps;
  do h1 <- phase_1_commitment H I salt pk msg coms (map r1_key_delta ph1) (map r1_t_delta ph1) (map r1_bcast ph1);
  do rss <- phase_1_expand H I c h1;
  do h2 <- phase_2_commitment H I c salt h1 (map (fun _ => repeat 0%N (m2 I + 1)) reps);
  do Rs <- phase_2_expand H I c fuel h2 (get_first_n_field_elements c (m2 I));
  Ok (mkCommitted trees coms ph1 h1 rss tapes h2 Rs).
(** the rest: corrections, opened values, the hidden parties, and the signature *)
Definition forge_finish (fuel : nat) (garb : nat -> N) (salt : bytes) (f : committed) : res signature :=
  let reps := seq 0 (num_rounds I) in
  do pre1 <- precompute_lagrange_polynomials ops (get_first_n_field_elements c (m2 I + 1));
  do pre2 <- precompute_lagrange_polynomials ops (get_first_n_field_elements c (2 * m2 I + 1));
  do ph5 <- mapM (fun rep =>
    do rs <- get (f_rss f) rep; do p1 <- get (f_ph1 f) rep; do tp <- get (f_tapes f) rep;
    do q <- forge_points rs p1 tp; do R <- get (f_Rs f) rep; forge_rep pre1 pre2 R q) reps;
  do h3 <- phase_3_commitment H I c salt (f_h2 f) (map (fun x => fst (snd x)) ph5) (map (fun x => snd (snd x)) ph5);
  do missing <- phase_3_expand H I fuel garb h3;
  do reveals <- mapM (fun rep => do t <- get (f_trees f) rep; do m <- get missing rep; reveal_all_but t m) reps;
  do proofs <- mapM (fun rep =>
    do m <- get missing rep; do crow <- get (f_coms f) rep; do com <- get crow m;
    do rv <- get reveals rep; do p1 <- get (f_ph1 f) rep; do p5 <- get ph5 rep;
    let o := fst (snd p5) in
    do accum <- accumulate I c (v_a o) (v_b o);
    if (accum =? v_c o)%N
    then Ok (mkProof rv com (r1_key_delta p1) (r1_t_delta p1) (fst p5) (v_c o) (v_a o) (v_b o))
    else Throw ESanity) reps;
  Ok (mkSig salt (f_h1 f) h3 proofs).
End Forge.
(** with the field of the parameter set, as banquet_sign and banquet_verify set it up *)
Definition forge_points_drawn (H : oracle) (fuel : nat) (I : instance) (pk msg salt : bytes) (seeds : list bytes) : res (list N) :=
  do c <- init_extension_field (lambda I);
  do f <- forge_commit H I c fuel pk msg salt seeds;
  Ok (f_Rs f).
Definition forge (H : oracle) (fuel : nat) (garb : nat -> N) (I : instance) (pk msg salt : bytes) (seeds : list bytes) : res signature :=
  do c <- init_extension_field (lambda I);
  do f <- forge_commit H I c fuel pk msg salt seeds;
  forge_finish H I c fuel garb salt f.

(** key is a secret key for pk: pk is a plaintext followed by its encryption under key (FIPS-197, block by block) *)
Definition secret_key_for (I : instance) (pk key : bytes) : Prop :=
  length key = key_size (i_aes I) /\ is_bytes key /\
  exists pt, length pt = pt_size I /\ is_bytes pt /\
    pk = pt ++ flat_map (cipher (key_size (i_aes I) / 4) key) (blocks (key_size (i_aes I) / 4) pt).
(** a public key for the sets with two blocks: two equal plaintext blocks, two different ciphertext blocks *)
Definition keyless_pk : bytes := zeros 32 ++ zeros 31 ++ [1%N].
