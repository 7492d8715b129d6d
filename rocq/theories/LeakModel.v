(** The table lookups of banquet_sign.  lift_uint8_t (field.cpp:314) reads lifting_lut[value], the only table in the code
    that is indexed by data; here every lookup is recorded.  The functions below repeat those of BanquetModel with the same
    names, without "log_"; [log_sign_erase] (LeakFacts) says that they compute the same.

    Simplified: other traces of secrets in the time or the addresses of the accesses are not recorded. *)
From Coq Require Import Arith NArith List Bool.
From Verif Require Import Prelude FieldModel PolyModel Instances HashModel TreeModel BanquetModel.
Import ListNotations.

(** the indices looked up so far, in order, and the outcome *)
Definition logged (A : Type) : Type := list N * res A.
Definition quiet {A} (r : res A) : logged A := ([], r).
Definition lbind {A B} (m : logged A) (f : A -> logged B) : logged B :=
  match snd m with
  | Ok a => (fst m ++ fst (f a), snd (f a))
  | Throw e => (fst m, Throw e)
  | UB u => (fst m, UB u)
  | OutOfFuel => (fst m, OutOfFuel)
  end.
Notation "'obs' x <- e ; f" := (lbind e (fun x => f))
  (at level 200, x pattern, e at level 100, f at level 200, right associativity).
Fixpoint lmapM {A B} (f : A -> logged B) (l : list A) : logged (list B) :=
  match l with
  | [] => ([], Ok [])
  | a :: l' => obs b <- f a; obs bs <- lmapM f l'; ([], Ok (b :: bs))
  end.

Section Log.
Variable H : oracle.
Variable I : instance.
Variable c : fctx.
Notation ops := (gops c).
(** lift_uint8_t, field.cpp:314 *)
Definition log_lift (x : N) : logged N := ([x], Ok (lift c x)).
(** banquet.cpp:518-538: per j and k, first the S-box input, then the S-box output *)
Definition log_sbox_products (pre : list (list N)) (last_lagrange : list N) (s t : bytes) (j : nat)
  : logged (list N * list N * list N) :=
  obs yst <- lmapM (fun k =>
    obs x <- quiet (get s (j + m1 I * k)); obs x <- log_lift x;
    obs y <- quiet (get t (j + m1 I * k)); obs y <- log_lift y; quiet (Ok (x, y))) (seq 0 (m2 I));
  obs S_poly <- quiet (interpolate_with_precomputation ops pre (map fst yst ++ [0%N]));
  obs T_poly <- quiet (interpolate_with_precomputation ops pre (map snd yst ++ [0%N]));
  obs st <- quiet (vmul ops S_poly T_poly);
  obs sl <- quiet (vmul ops S_poly last_lagrange);
  obs tl <- quiet (vmul ops T_poly last_lagrange);
  quiet (Ok (st, sl, tl)).
(** banquet.cpp:551-596: per S-box, first the share of the input, then the share of the output *)
Definition log_party_points (rs : list N) (sh_s sh_t tape : bytes) : logged (list (list N) * list (list N)) :=
  obs lifted <- lmapM (fun idx =>
    obs x <- quiet (get sh_s idx); obs x <- log_lift x;
    obs y <- quiet (get sh_t idx); obs y <- log_lift y; quiet (Ok (x, y))) (seq 0 (num_sboxes (i_aes I)));
  let lifted_s := map fst lifted in
  let lifted_t := map snd lifted in
  quiet (do rows <- mapM (fun j =>
    do r <- get rs j;
    do s_bar <- mapM (fun k => do x <- get lifted_s (j + m1 I * k); Ok (gmul c r x)) (seq 0 (m2 I));
    do t_bar <- mapM (fun k => get lifted_t (j + m1 I * k)) (seq 0 (m2 I));
    do sp <- read tape (key_size (i_aes I) + num_sboxes (i_aes I) + j * 2 * lambda I) (2 * lambda I);
    do s <- elem_at c sp 0;
    do t <- elem_at c sp (lambda I);
    Ok (s_bar ++ [s], t_bar ++ [t])) (seq 0 (m1 I));
  Ok (map fst rows, map snd rows)).
(** banquet.cpp:540-656 *)
Definition log_sign_phase3 (xs2 : list N) (prods : list (list N * list N * list N)) (last_sq : list N)
  (rs : list N) (ph1 : rep1) (tapes : list bytes) : logged rep3 :=
  obs pts <- lmapM (fun party =>
    obs s <- quiet (get (r1_s ph1) party); obs t <- quiet (get (r1_t ph1) party); obs tp <- quiet (get tapes party);
    log_party_points rs s t tp) (seq 0 (num_parties I));
  quiet (do s_rnd <- mapM (random_point I (map fst pts)) (seq 0 (m1 I));
  do t_rnd <- mapM (random_point I (map snd pts)) (seq 0 (m1 I));
  do P <- P_poly I c rs prods last_sq s_rnd t_rnd;
  do shares <- mapM (fun party => do tp <- get tapes party; P_share I c rs party tp) (seq 0 (num_parties I));
  do deltas <- P_deltas_of I c P xs2 shares;
  do shares <- adjust_first I deltas shares;
  Ok (mkRep3 pts P shares deltas)).
(** banquet.cpp:296-775 *)
Definition log_sign_body (fuel : nat) (garb : nat -> N) (kp : keypair) (msg : bytes) : logged signature :=
  let reps := seq 0 (num_rounds I) in
  let key := fst kp in
  obs pt <- quiet (read (snd kp) 0 (pt_size I));
  obs ct <- quiet (read (snd kp) (pt_size I) (pt_size I));
  obs sb <- quiet (aes_with_sbox_output (key_size (i_aes I)) key pt);
  let s_vals := fst (fst sb) in
  let t_vals := snd (fst sb) in
  let '(salt, seeds) := generate_salt_and_seeds H I kp msg in
  obs setup <- quiet (mapM (fun rep => do master <- get seeds rep; sign_setup H I salt rep master) reps);
  let trees := map (fun x => fst (fst x)) setup in
  let coms := map (fun x => snd (fst x)) setup in
  let tapes := map snd setup in
  obs ph1 <- quiet (mapM (fun rep => do tp <- get tapes rep; sign_phase1 I key t_vals pt tp) reps);
  obs h1 <- quiet (phase_1_commitment H I salt (snd kp) msg coms (map r1_key_delta ph1) (map r1_t_delta ph1) (map r1_bcast ph1));
  obs rss <- quiet (phase_1_expand H I c h1);
  let xs1 := get_first_n_field_elements c (m2 I + 1) in
  obs pre1 <- quiet (precompute_lagrange_polynomials ops xs1);
  let xs2 := get_first_n_field_elements c (2 * m2 I + 1) in
  obs pre2 <- quiet (precompute_lagrange_polynomials ops xs2);
  obs last_lagrange <- quiet (get pre1 (m2 I));
  obs last_sq <- quiet (vmul ops last_lagrange last_lagrange);
  obs prods <- lmapM (log_sbox_products pre1 last_lagrange s_vals t_vals) (seq 0 (m1 I));
  obs ph3 <- lmapM (fun rep =>
    obs rs <- quiet (get rss rep); obs p1 <- quiet (get ph1 rep); obs tp <- quiet (get tapes rep);
    log_sign_phase3 xs2 prods last_sq rs p1 tp) reps;
  quiet (do h2 <- phase_2_commitment H I c salt h1 (map r3_delta ph3);
  do Rs <- phase_2_expand H I c fuel h2 (get_first_n_field_elements c (m2 I));
  do ph5 <- mapM (fun rep => do R <- get Rs rep; do p3 <- get ph3 rep; sign_phase5 I c pre1 pre2 R p3) reps;
  do h3 <- phase_3_commitment H I c salt h2 (map fst ph5) (map snd ph5);
  do missing <- phase_3_expand H I fuel garb h3;
  do reveals <- mapM (fun rep => do t <- get trees rep; do m <- get missing rep; reveal_all_but t m) reps;
  do proofs <- mapM (fun rep =>
    do m <- get missing rep; do crow <- get coms rep; do com <- get crow m;
    do com <- copy_into com (zeros (digest_size I));
    do rv <- get reveals rep; do p1 <- get ph1 rep; do p3 <- get ph3 rep; do p5 <- get ph5 rep;
    let o := fst p5 in
    do accum <- accumulate I c (v_a o) (v_b o);
    if (accum =? v_c o)%N
    then Ok (mkProof rv com (r1_key_delta p1) (r1_t_delta p1) (r3_delta p3) (v_c o) (v_a o) (v_b o))
    else Throw ESanity) reps;
  Ok (mkSig salt h1 h3 proofs)).
End Log.

(** banquet_sign, banquet.cpp:290-775: the lookups it makes after init_extension_field, and what it returns.  (The lookups of
    init_lifting_lut are the same in all calls.) *)
Definition log_sign (H : oracle) (fuel : nat) (garb : nat -> N) (st : fstate) (I : instance) (kp : keypair) (msg : bytes) : logged signature :=
  match st_init st (lambda I) with
  | (Some c, Ok tt) => log_sign_body H I c fuel garb kp msg
  | _ => quiet (snd (sign H fuel garb st I kp msg))
  end.
