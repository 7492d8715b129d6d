(** The sponge and hash functions of keccak/ over the interfaces SnP and PlSnP.  SpongeModel describes a state by its 200
    bytes; the implementations keep it in memory in their own way: keccak/opt64 as the 200 bytes, keccak/avx2 with the lanes
    permuted (one state) or interleaved (four states).  Here KeccakSponge.inc, KeccakHash.c, KeccakSpongetimes4.inc and
    KeccakHashtimes4.c are modelled over an arbitrary implementation; the state is the raw memory.  unsigned int has 32 bits,
    size_t 64.  The return values, which kdf_shake.h ignores, are not modelled. *)
From Coq Require Import Arith NArith List Bool Lia.
From Verif Require Import Prelude SpongeModel.
Import ListNotations.

(** SnP_Initialize on the given old contents, SnP_AddByte(state, byte, offset), SnP_AddBytes(state, data, offset, length),
    SnP_ExtractBytes(state, data, offset, length): the bytes written, SnP_Permute, SnP_FastLoop_Absorb(state, laneCount,
    data, dataByteLen): the new memory and the return value; its first argument is fuel *)
Record snp : Type := mkSnp {
  snp_init : bytes -> res bytes;
  snp_add_byte : bytes -> N -> nat -> res bytes;
  snp_add_bytes : bytes -> bytes -> nat -> N -> res bytes;
  snp_extract : bytes -> nat -> N -> res bytes;
  snp_permute : bytes -> res bytes;
  snp_fast : nat -> bytes -> nat -> bytes -> res (bytes * nat) }.

Section Snp.
Variable P : snp.

(** SpongeInitialize, KeccakSponge.inc:134-147; None: the return value 1, the memory is as before *)
Definition g_sponge_initialize (m : bytes) (rate capacity : nat) : res (option sponge) :=
  if negb (rate + capacity =? 1600) then Ok None
  else if (rate <=? 0) || (1600 <? rate) || negb (rate mod 8 =? 0) then Ok None
  else do m' <- snp_init P m; Ok (Some (mkSponge m' rate 0 false)).
(** KeccakSponge.inc:175-183 *)
Fixpoint g_absorb_blocks (rb : nat) (fuel : nat) (m d : bytes) : res (bytes * bytes) :=
  match fuel with
  | O => OutOfFuel
  | S fuel' =>
    if rb <=? length d
    then do m' <- snp_add_bytes P m d 0 (N.of_nat rb); do m' <- snp_permute P m'; g_absorb_blocks rb fuel' m' (skipn rb d)
    else Ok (m, d)
  end.
(** the loop of SpongeAbsorb, KeccakSponge.inc:161-206; d is the data from position i on *)
Fixpoint g_absorb_loop (rb : nat) (fuel : nat) (m : bytes) (idx : nat) (d : bytes) : res (bytes * nat) :=
  match fuel with
  | O => OutOfFuel
  | S fuel' =>
    if length d =? 0 then Ok (m, idx)
    else if (idx =? 0) && (rb <=? length d)
    then
      if rb mod (1600 / 200) =? 0
      then do (m', j) <- snp_fast P fuel m (rb / (1600 / 200)) d; g_absorb_loop rb fuel' m' idx (skipn j d)
      else do (m', d') <- g_absorb_blocks rb fuel m d; g_absorb_loop rb fuel' m' idx d'
    else
      let p0 := u32 (N.of_nat (length d)) in
      let p := if N.ltb (N.of_nat rb) (u32 (p0 + N.of_nat idx)) then N.of_nat (rb - idx) else p0 in
      do m' <- snp_add_bytes P m d idx p;
      let idx' := idx + N.to_nat p in
      if idx' =? rb then do m' <- snp_permute P m'; g_absorb_loop rb fuel' m' 0 (skipn (N.to_nat p) d)
      else g_absorb_loop rb fuel' m' idx' (skipn (N.to_nat p) d)
  end.
(** SpongeAbsorb, KeccakSponge.inc:151-208 *)
Definition g_sponge_absorb (fuel : nat) (s : sponge) (d : bytes) : res sponge :=
  if sp_squeezing s then Ok s
  else do (m, idx) <- g_absorb_loop (sp_rate s / 8) fuel (sp_state s) (sp_idx s) d;
       Ok (mkSponge m (sp_rate s) idx false).
(** SpongeAbsorbLastFewBits, KeccakSponge.inc:212-250; None: the return value 1 *)
Definition g_sponge_last (s : sponge) (delim : N) : res (option sponge) :=
  let rb := sp_rate s / 8 in
  if N.eqb delim 0 then Ok None
  else if sp_squeezing s then Ok None
  else
    do m <- snp_add_byte P (sp_state s) delim (sp_idx s);
    do m <- (if N.leb 128 delim && (sp_idx s =? rb - 1) then snp_permute P m else Ok m);
    do m <- snp_add_byte P m 128 (rb - 1);
    do m <- snp_permute P m;
    Ok (Some (mkSponge m (sp_rate s) 0 true)).
(** KeccakSponge.inc:268-276 *)
Fixpoint g_squeeze_blocks (rb : nat) (fuel : nat) (m : bytes) (need : nat) : res (bytes * bytes * nat) :=
  match fuel with
  | O => OutOfFuel
  | S fuel' =>
    if rb <=? need
    then do m' <- snp_permute P m; do o <- snp_extract P m' 0 (N.of_nat rb);
         do (o', m'', need') <- g_squeeze_blocks rb fuel' m' (need - rb); Ok (o ++ o', m'', need')
    else Ok ([], m, need)
  end.
(** KeccakSponge.inc:264-296; need is dataByteLen - i *)
Fixpoint g_squeeze_loop (rb : nat) (fuel : nat) (m : bytes) (idx need : nat) : res (bytes * bytes * nat) :=
  match fuel with
  | O => OutOfFuel
  | S fuel' =>
    if need =? 0 then Ok ([], m, idx)
    else if (idx =? rb) && (rb <=? need)
    then do (o, m', need') <- g_squeeze_blocks rb fuel m need;
         do (o', m'', idx') <- g_squeeze_loop rb fuel' m' idx need'; Ok (o ++ o', m'', idx')
    else
      do (m, idx) <- (if idx =? rb then do m' <- snp_permute P m; Ok (m', 0) else Ok (m, idx));
      let p0 := u32 (N.of_nat need) in
      let p := if N.ltb (N.of_nat rb) (u32 (p0 + N.of_nat idx)) then N.of_nat (rb - idx) else p0 in
      do o <- snp_extract P m idx p;
      do (o', m', idx') <- g_squeeze_loop rb fuel' m (idx + N.to_nat p) (need - N.to_nat p); Ok (o ++ o', m', idx')
  end.
(** SpongeSqueeze, KeccakSponge.inc:254-298 *)
Definition g_sponge_squeeze (fuel : nat) (s : sponge) (need : nat) : res (bytes * sponge) :=
  do s <- (if sp_squeezing s then Ok s else do s' <- g_sponge_last s 1; Ok (match s' with Some s' => s' | None => s end));
  do (o, m, idx) <- g_squeeze_loop (sp_rate s / 8) fuel (sp_state s) (sp_idx s) need;
  Ok (o, mkSponge m (sp_rate s) idx (sp_squeezing s)).

(** Keccak_HashInitialize, KeccakHash.c:23-38 *)
Definition g_keccak_initialize (m : bytes) (rate capacity hashbitlen : nat) (suffix : N) : res (option khash) :=
  if N.eqb suffix 0 then Ok None
  else do s <- g_sponge_initialize m rate capacity;
       Ok (match s with Some s => Some (mkKhash s hashbitlen suffix) | None => None end).
(** hash_init, kdf_shake.h:46-52, and the macros KeccakHash.h:70-77 *)
Definition g_hash_init (m : bytes) (digest_size : nat) : res (option khash) :=
  if digest_size =? 32 then g_keccak_initialize m 1344 256 0 31 else g_keccak_initialize m 1088 512 0 31.
(** hash_update, kdf_shake.h:54-57, and Keccak_HashUpdate, KeccakHash.c:42-46 *)
Definition g_hash_update (fuel : nat) (k : khash) (d : bytes) : res khash :=
  do s <- g_sponge_absorb fuel (kh_sponge k) (firstn (bits_bytes (length d)) d); Ok (mkKhash s (kh_fixed k) (kh_suffix k)).
(** hash_final, kdf_shake.h:59-61, and Keccak_HashFinal, KeccakHash.c:76-85 *)
Definition g_hash_final (fuel : nat) (k : khash) : res khash :=
  do s <- g_sponge_last (kh_sponge k) (kh_suffix k);
  match s with
  | None => Ok k
  | Some s => do (o, s') <- g_sponge_squeeze fuel s (kh_fixed k / 8);
              if length o =? 0 then Ok (mkKhash s' (kh_fixed k) (kh_suffix k)) else UB OutOfBounds
  end.
(** hash_squeeze, kdf_shake.h:63-66, and Keccak_HashSqueeze, KeccakHash.c:89-95 *)
Definition g_hash_squeeze (fuel : nat) (k : khash) (len : nat) : res (bytes * khash) :=
  do (o, s) <- g_sponge_squeeze fuel (kh_sponge k) (bits_bytes len); Ok (o, mkKhash s (kh_fixed k) (kh_suffix k)).

(** whole computations, as in SpongeApi; m is the uninitialised state memory *)
Fixpoint g_squeezes (fuel : nat) (k : khash) (lens : list nat) : res (list bytes) :=
  match lens with
  | [] => Ok []
  | n :: lens' => do (o, k') <- g_hash_squeeze fuel k n; do os <- g_squeezes fuel k' lens'; Ok (o :: os)
  end.
Definition g_hash_run (m : bytes) (fuel digest : nat) (chunks : list bytes) (lens : list nat) : res (list bytes) :=
  do k <- g_hash_init m digest;
  match k with
  | None => UB OutOfBounds
  | Some k => do k <- foldM (g_hash_update fuel) chunks k; do k <- g_hash_final fuel k; g_squeezes fuel k lens
  end.
End Snp.

(** ** four states *)

(** PlSnP_InitializeAll, PlSnP_AddByte(states, instanceIndex, byte, offset), PlSnP_AddBytes(states, instanceIndex, data, offset,
    length), PlSnP_ExtractBytes(states, instanceIndex, data, offset, length), PlSnP_Permute *)
Record plsnp : Type := mkPlsnp {
  pl_init : bytes -> res bytes;
  pl_add_byte : bytes -> nat -> N -> nat -> res bytes;
  pl_add_bytes : bytes -> nat -> bytes -> nat -> N -> res bytes;
  pl_extract : bytes -> nat -> nat -> N -> res bytes;
  pl_permute : bytes -> res bytes }.

Section Plsnp.
Variable Q : plsnp.

(** the loops over instanceIndex, KeccakSpongetimes4.inc:86-89, 104-107; 130-132, 138-140; 169-172, 187-190 *)
Definition g_add_bytes4 (m : bytes) (ds : list bytes) (off : nat) (len : N) : res bytes :=
  foldM (fun m i => pl_add_bytes Q m i (nth i ds []) off len) (seq 0 4) m.
Definition g_add_byte4 (m : bytes) (b : N) (off : nat) : res bytes := foldM (fun m i => pl_add_byte Q m i b off) (seq 0 4) m.
Definition g_extract4 (m : bytes) (off : nat) (len : N) : res (list bytes) := mapM (fun i => pl_extract Q m i off len) (seq 0 4).

(** SpongeInitialize, KeccakSpongetimes4.inc:38-51; KeccakWidth1600times4_SpongeInstance has the fields of
    KeccakWidth1600_SpongeInstance *)
Definition g_sponge4_initialize (m : bytes) (rate capacity : nat) : res (option sponge) :=
  if negb (rate + capacity =? 1600) then Ok None
  else if (rate <=? 0) || (1600 <? rate) || negb (rate mod 8 =? 0) then Ok None
  else do m' <- pl_init Q m; Ok (Some (mkSponge m' rate 0 false)).
(** KeccakSpongetimes4.inc:85-92; there is no fast loop (KeccakSpongetimes4.c:24) *)
Fixpoint g_absorb_blocks4 (rb : nat) (fuel : nat) (m : bytes) (ds : list bytes) : res (bytes * list bytes) :=
  match fuel with
  | O => OutOfFuel
  | S fuel' =>
    if rb <=? len4 ds
    then do m' <- g_add_bytes4 m ds 0 (N.of_nat rb); do m' <- pl_permute Q m'; g_absorb_blocks4 rb fuel' m' (map (skipn rb) ds)
    else Ok (m, ds)
  end.
(** KeccakSpongetimes4.inc:65-114 *)
Fixpoint g_absorb_loop4 (rb : nat) (fuel : nat) (m : bytes) (idx : nat) (ds : list bytes) : res (bytes * nat) :=
  match fuel with
  | O => OutOfFuel
  | S fuel' =>
    if len4 ds =? 0 then Ok (m, idx)
    else if (idx =? 0) && (rb <=? len4 ds)
    then do (m', ds') <- g_absorb_blocks4 rb fuel m ds; g_absorb_loop4 rb fuel' m' idx ds'
    else
      let p0 := u32 (N.of_nat (len4 ds)) in
      let p := if N.ltb (N.of_nat rb) (u32 (p0 + N.of_nat idx)) then N.of_nat (rb - idx) else p0 in
      do m' <- g_add_bytes4 m ds idx p;
      let idx' := idx + N.to_nat p in
      if idx' =? rb then do m' <- pl_permute Q m'; g_absorb_loop4 rb fuel' m' 0 (map (skipn (N.to_nat p)) ds)
      else g_absorb_loop4 rb fuel' m' idx' (map (skipn (N.to_nat p)) ds)
  end.
(** SpongeAbsorb, KeccakSpongetimes4.inc:55-116 *)
Definition g_sponge4_absorb (fuel : nat) (s : sponge) (ds : list bytes) : res sponge :=
  if sp_squeezing s then Ok s
  else do (m, idx) <- g_absorb_loop4 (sp_rate s / 8) fuel (sp_state s) (sp_idx s) ds;
       Ok (mkSponge m (sp_rate s) idx false).
(** SpongeAbsorbLastFewBits, KeccakSpongetimes4.inc:120-145 *)
Definition g_sponge4_last (s : sponge) (delim : N) : res (option sponge) :=
  let rb := sp_rate s / 8 in
  if N.eqb delim 0 then Ok None
  else if sp_squeezing s then Ok None
  else
    do m <- g_add_byte4 (sp_state s) delim (sp_idx s);
    do m <- (if N.leb 128 delim && (sp_idx s =? rb - 1) then pl_permute Q m else Ok m);
    do m <- g_add_byte4 m 128 (rb - 1);
    do m <- pl_permute Q m;
    Ok (Some (mkSponge m (sp_rate s) 0 true)).
(** KeccakSpongetimes4.inc:167-174 *)
Fixpoint g_squeeze_blocks4 (rb : nat) (fuel : nat) (m : bytes) (need : nat) : res (list bytes * bytes * nat) :=
  match fuel with
  | O => OutOfFuel
  | S fuel' =>
    if rb <=? need
    then do m' <- pl_permute Q m; do o <- g_extract4 m' 0 (N.of_nat rb);
         do (o', m'', need') <- g_squeeze_blocks4 rb fuel' m' (need - rb); Ok (app4 o o', m'', need')
    else Ok (repeat [] 4, m, need)
  end.
(** KeccakSpongetimes4.inc:159-193 *)
Fixpoint g_squeeze_loop4 (rb : nat) (fuel : nat) (m : bytes) (idx need : nat) : res (list bytes * bytes * nat) :=
  match fuel with
  | O => OutOfFuel
  | S fuel' =>
    if need =? 0 then Ok (repeat [] 4, m, idx)
    else if (idx =? rb) && (rb <=? need)
    then do (o, m', need') <- g_squeeze_blocks4 rb fuel m need;
         do (o', m'', idx') <- g_squeeze_loop4 rb fuel' m' idx need'; Ok (app4 o o', m'', idx')
    else
      do (m, idx) <- (if idx =? rb then do m' <- pl_permute Q m; Ok (m', 0) else Ok (m, idx));
      let p0 := u32 (N.of_nat need) in
      let p := if N.ltb (N.of_nat rb) (u32 (p0 + N.of_nat idx)) then N.of_nat (rb - idx) else p0 in
      do o <- g_extract4 m idx p;
      do (o', m', idx') <- g_squeeze_loop4 rb fuel' m (idx + N.to_nat p) (need - N.to_nat p); Ok (app4 o o', m', idx')
  end.
(** SpongeSqueeze, KeccakSpongetimes4.inc:149-195 *)
Definition g_sponge4_squeeze (fuel : nat) (s : sponge) (need : nat) : res (list bytes * sponge) :=
  do s <- (if sp_squeezing s then Ok s else do s' <- g_sponge4_last s 1; Ok (match s' with Some s' => s' | None => s end));
  do (o, m, idx) <- g_squeeze_loop4 (sp_rate s / 8) fuel (sp_state s) (sp_idx s) need;
  Ok (o, mkSponge m (sp_rate s) idx (sp_squeezing s)).

(** Keccak_HashInitializetimes4, KeccakHashtimes4.c:19-31 *)
Definition g_keccak4_initialize (m : bytes) (rate capacity hashbitlen : nat) (suffix : N) : res (option khash) :=
  if N.eqb suffix 0 then Ok None
  else do s <- g_sponge4_initialize m rate capacity;
       Ok (match s with Some s => Some (mkKhash s hashbitlen suffix) | None => None end).
(** hash_init_x4, kdf_shake.h:100-106 *)
Definition g_hash_init_x4 (m : bytes) (digest_size : nat) : res (option khash) :=
  if digest_size =? 32 then g_keccak4_initialize m 1344 256 0 31 else g_keccak4_initialize m 1088 512 0 31.
(** hash_update_x4, hash_update_x4_4, kdf_shake.h:108-118, Keccak_HashUpdatetimes4, KeccakHashtimes4.c:35-40 *)
Definition g_hash_update_x4 (fuel : nat) (k : khash) (ds : list bytes) : res khash :=
  do s <- g_sponge4_absorb fuel (kh_sponge k) (map (firstn (bits_bytes (len4 ds))) ds); Ok (mkKhash s (kh_fixed k) (kh_suffix k)).
(** hash_final_x4, kdf_shake.h:132-134, Keccak_HashFinaltimes4, KeccakHashtimes4.c:44-51 *)
Definition g_hash_final_x4 (fuel : nat) (k : khash) : res khash :=
  do s <- g_sponge4_last (kh_sponge k) (kh_suffix k);
  match s with
  | None => Ok k
  | Some s => do (o, s') <- g_sponge4_squeeze fuel s (kh_fixed k / 8);
              if len4 o =? 0 then Ok (mkKhash s' (kh_fixed k) (kh_suffix k)) else UB OutOfBounds
  end.
(** hash_squeeze_x4, hash_squeeze_x4_4, kdf_shake.h:136-146, Keccak_HashSqueezetimes4, KeccakHashtimes4.c:55-60 *)
Definition g_hash_squeeze_x4 (fuel : nat) (k : khash) (len : nat) : res (list bytes * khash) :=
  do (o, s) <- g_sponge4_squeeze fuel (kh_sponge k) (bits_bytes len); Ok (o, mkKhash s (kh_fixed k) (kh_suffix k)).
Fixpoint g_squeezes_x4 (fuel : nat) (k : khash) (lens : list nat) : res (list (list bytes)) :=
  match lens with
  | [] => Ok []
  | n :: lens' => do (o, k') <- g_hash_squeeze_x4 fuel k n; do os <- g_squeezes_x4 fuel k' lens'; Ok (o :: os)
  end.
Definition g_hash_run_x4 (m : bytes) (fuel digest : nat) (chunks : list (list bytes)) (lens : list nat) : res (list (list bytes)) :=
  do k <- g_hash_init_x4 m digest;
  match k with
  | None => UB OutOfBounds
  | Some k => do k <- foldM (g_hash_update_x4 fuel) chunks k; do k <- g_hash_final_x4 fuel k; g_squeezes_x4 fuel k lens
  end.
End Plsnp.
