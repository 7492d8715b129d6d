(** Model of the hash functions behind kdf_shake.h: keccak/KeccakSponge.inc, KeccakHash.c and their four-way versions
    KeccakSpongetimes4.inc, KeccakHashtimes4.c.
    The permutation of the 200 bytes of a state is a parameter f.  The other operations of the layer below (SnP) are the
    byte-wise ones: adding (xor) bytes at an offset, extracting bytes from an offset; an access outside the 200 bytes or
    outside the caller's buffer is UB.  (The implementations of this layer are modelled apart: keccak/opt64 in
    KeccakModel and Opt64Model, the assembler code in keccak/avx2, which the default build uses, in Avx2Code and Avx2Model;
    SnpSponge has the sponge over an implementation.)  unsigned int has 32 bits, size_t 64.
    Fuel bounds the loops; a loop that never ends is OutOfFuel for every fuel. *)
From Coq Require Import Arith NArith List Bool Lia.
From Verif Require Import Prelude.
Import ListNotations.

Definition u32 (x : N) : N := (x mod 2 ^ 32)%N.

(** xor the bytes d into the state from offset off on *)
Fixpoint xin (st : bytes) (off : nat) (d : bytes) : bytes :=
  match st with
  | [] => []
  | s :: st' =>
    match off with
    | S o => s :: xin st' o d
    | O => match d with [] => s :: st' | b :: d' => N.lxor s b :: xin st' O d' end
    end
  end.
(** SnP_AddBytes, KeccakP1600_AddBytes: the first len bytes of d *)
Definition add_bytes (st : bytes) (d : bytes) (off : nat) (len : N) : res bytes :=
  if (N.leb (N.of_nat off + len) (N.of_nat (length st)) && N.leb len (N.of_nat (length d)))%bool
  then Ok (xin st off (firstn (N.to_nat len) d)) else UB OutOfBounds.
(** SnP_AddByte, KeccakP-1600-SnP.h:42-43 *)
Definition add_byte (st : bytes) (b : N) (off : nat) : res bytes :=
  if off <? length st then Ok (xin st off [b]) else UB OutOfBounds.
(** SnP_ExtractBytes *)
Definition extract_bytes (st : bytes) (off : nat) (len : N) : res bytes :=
  if N.leb (N.of_nat off + len) (N.of_nat (length st)) then Ok (slice st off (N.to_nat len)) else UB OutOfBounds.

(** KeccakWidth1600_SpongeInstance, KeccakSponge.h:28-33; rate is in bits *)
Record sponge : Type := mkSponge { sp_state : bytes; sp_rate : nat; sp_idx : nat; sp_squeezing : bool }.

Section Perm.
Variable f : bytes -> bytes.

(** SpongeInitialize, KeccakSponge.inc:134-147; None: the return value 1 *)
Definition sponge_initialize (rate capacity : nat) : option sponge :=
  if negb (rate + capacity =? 1600) then None
  else if (rate <=? 0) || (1600 <? rate) || negb (rate mod 8 =? 0) then None
  else Some (mkSponge (repeat 0%N 200) rate 0 false).

(** the loop over full blocks, KeccakSponge.inc:175-182, and KeccakF1600_FastLoop_Absorb, KeccakP-1600-opt64.c:518-534,
    which replaces it when compiled in; d is what is left of the data *)
Fixpoint absorb_blocks (rb : nat) (fuel : nat) (st d : bytes) : res (bytes * bytes) :=
  match fuel with
  | O => OutOfFuel
  | S fuel' =>
    if rb <=? length d
    then do st' <- add_bytes st d 0 (N.of_nat rb); absorb_blocks rb fuel' (f st') (skipn rb d)
    else Ok (st, d)
  end.
(** the loop of SpongeAbsorb, KeccakSponge.inc:161-206; d is the data from position i on *)
Fixpoint absorb_loop (rb : nat) (fuel : nat) (st : bytes) (idx : nat) (d : bytes) : res (bytes * nat) :=
  match fuel with
  | O => OutOfFuel
  | S fuel' =>
    if length d =? 0 then Ok (st, idx)
    else if (idx =? 0) && (rb <=? length d)
    then do (st', d') <- absorb_blocks rb fuel st d; absorb_loop rb fuel' st' idx d'
    else
      let p0 := u32 (N.of_nat (length d)) in
      let p := if N.ltb (N.of_nat rb) (u32 (p0 + N.of_nat idx)) then N.of_nat (rb - idx) else p0 in
      do st' <- add_bytes st d idx p;
      let idx' := idx + N.to_nat p in
      if idx' =? rb then absorb_loop rb fuel' (f st') 0 (skipn (N.to_nat p) d)
      else absorb_loop rb fuel' st' idx' (skipn (N.to_nat p) d)
  end.
(** SpongeAbsorb, KeccakSponge.inc:151-208; the return value, which hash_update ignores, is not modelled *)
Definition sponge_absorb (fuel : nat) (s : sponge) (d : bytes) : res sponge :=
  if sp_squeezing s then Ok s
  else do (st, idx) <- absorb_loop (sp_rate s / 8) fuel (sp_state s) (sp_idx s) d;
       Ok (mkSponge st (sp_rate s) idx false).
(** SpongeAbsorbLastFewBits, KeccakSponge.inc:212-250; None: the return value 1 *)
Definition sponge_last (s : sponge) (delim : N) : res (option sponge) :=
  let rb := sp_rate s / 8 in
  if N.eqb delim 0 then Ok None
  else if sp_squeezing s then Ok None
  else
    do st <- add_byte (sp_state s) delim (sp_idx s);
    let st := if N.leb 128 delim && (sp_idx s =? rb - 1) then f st else st in
    do st <- add_byte st 128 (rb - 1);
    Ok (Some (mkSponge (f st) (sp_rate s) 0 true)).
(** the loop over full blocks of SpongeSqueeze, KeccakSponge.inc:268-276: output, state, how much is left *)
Fixpoint squeeze_blocks (rb : nat) (fuel : nat) (st : bytes) (need : nat) : res (bytes * bytes * nat) :=
  match fuel with
  | O => OutOfFuel
  | S fuel' =>
    if rb <=? need
    then do o <- extract_bytes (f st) 0 (N.of_nat rb); do (o', st', need') <- squeeze_blocks rb fuel' (f st) (need - rb); Ok (o ++ o', st', need')
    else Ok ([], st, need)
  end.
(** the loop of SpongeSqueeze, KeccakSponge.inc:264-296; need is dataByteLen - i *)
Fixpoint squeeze_loop (rb : nat) (fuel : nat) (st : bytes) (idx need : nat) : res (bytes * bytes * nat) :=
  match fuel with
  | O => OutOfFuel
  | S fuel' =>
    if need =? 0 then Ok ([], st, idx)
    else if (idx =? rb) && (rb <=? need)
    then do (o, st', need') <- squeeze_blocks rb fuel st need;
         do (o', st'', idx') <- squeeze_loop rb fuel' st' idx need'; Ok (o ++ o', st'', idx')
    else
      let (st, idx) := if idx =? rb then (f st, 0) else (st, idx) in
      let p0 := u32 (N.of_nat need) in
      let p := if N.ltb (N.of_nat rb) (u32 (p0 + N.of_nat idx)) then N.of_nat (rb - idx) else p0 in
      do o <- extract_bytes st idx p;
      do (o', st', idx') <- squeeze_loop rb fuel' st (idx + N.to_nat p) (need - N.to_nat p); Ok (o ++ o', st', idx')
  end.
(** SpongeSqueeze, KeccakSponge.inc:254-298: the bytes written and the new state *)
Definition sponge_squeeze (fuel : nat) (s : sponge) (need : nat) : res (bytes * sponge) :=
  do s <- (if sp_squeezing s then Ok s else do s' <- sponge_last s 1; Ok (match s' with Some s' => s' | None => s end));
  do (o, st, idx) <- squeeze_loop (sp_rate s / 8) fuel (sp_state s) (sp_idx s) need;
  Ok (o, mkSponge st (sp_rate s) idx (sp_squeezing s)).

(** Keccak_HashInstance, KeccakHash.h:39-43 *)
Record khash : Type := mkKhash { kh_sponge : sponge; kh_fixed : nat; kh_suffix : N }.
(** Keccak_HashInitialize, KeccakHash.c:23-38 *)
Definition keccak_initialize (rate capacity hashbitlen : nat) (suffix : N) : option khash :=
  if N.eqb suffix 0 then None
  else match sponge_initialize rate capacity with Some s => Some (mkKhash s hashbitlen suffix) | None => None end.
(** hash_init, kdf_shake.h:46-52, and the macros KeccakHash.h:70-77; None: the context stays uninitialised *)
Definition k_hash_init (digest_size : nat) : option khash :=
  if digest_size =? 32 then keccak_initialize 1344 256 0 31 else keccak_initialize 1088 512 0 31.
(** size_t bits = size << 3, then bits / 8 *)
Definition bits_bytes (size : nat) : nat := N.to_nat (N.of_nat size * 8 mod 2 ^ 64 / 8).
(** hash_update, kdf_shake.h:54-57, and Keccak_HashUpdate, KeccakHash.c:42-46 (the number of bits is a multiple of 8) *)
Definition k_hash_update (fuel : nat) (k : khash) (d : bytes) : res khash :=
  do s <- sponge_absorb fuel (kh_sponge k) (firstn (bits_bytes (length d)) d); Ok (mkKhash s (kh_fixed k) (kh_suffix k)).
(** hash_final, kdf_shake.h:59-61, and Keccak_HashFinal, KeccakHash.c:76-85; fixedOutputLength is 0 for SHAKE, so that
    nothing is written through the null pointer *)
Definition k_hash_final (fuel : nat) (k : khash) : res khash :=
  do s <- sponge_last (kh_sponge k) (kh_suffix k);
  match s with
  | None => Ok k
  | Some s => do (o, s') <- sponge_squeeze fuel s (kh_fixed k / 8);
              if length o =? 0 then Ok (mkKhash s' (kh_fixed k) (kh_suffix k)) else UB OutOfBounds
  end.
(** hash_squeeze, kdf_shake.h:63-66, and Keccak_HashSqueeze, KeccakHash.c:89-95 *)
Definition k_hash_squeeze (fuel : nat) (k : khash) (len : nat) : res (bytes * khash) :=
  do (o, s) <- sponge_squeeze fuel (kh_sponge k) (bits_bytes len); Ok (o, mkKhash s (kh_fixed k) (kh_suffix k)).

(** ** four states in lock step *)

(** KeccakWidth1600times4_SpongeInstance, KeccakSpongetimes4.h:21-26.  The state of instance i is number i of sq_states:
    that is the layout of keccak/opt64 (PlSnP-Fallback.inc:48-50); keccak/avx2 interleaves the lanes. *)
Record sponge4 : Type := mkSponge4 { sq_states : list bytes; sq_rate : nat; sq_idx : nat; sq_squeezing : bool }.
(** PlSnP_AddBytes in a loop over the instances, KeccakSpongetimes4.inc:86-89, 104-107 *)
Definition add_bytes4 (sts ds : list bytes) (off : nat) (len : N) : res (list bytes) :=
  mapM (fun sd => add_bytes (fst sd) (snd sd) off len) (combine sts ds).
Definition add_byte4 (sts : list bytes) (b : N) (off : nat) : res (list bytes) := mapM (fun st => add_byte st b off) sts.
Definition extract_bytes4 (sts : list bytes) (off : nat) (len : N) : res (list bytes) := mapM (fun st => extract_bytes st off len) sts.
Definition app4 (os os' : list bytes) : list bytes := map (fun p => fst p ++ snd p) (combine os os').
(** the number of bytes left in each of the four inputs; they have equal length *)
Definition len4 (ds : list bytes) : nat := match ds with d :: _ => length d | [] => 0 end.

(** SpongeInitialize, KeccakSpongetimes4.inc:38-51 *)
Definition sponge4_initialize (rate capacity : nat) : option sponge4 :=
  if negb (rate + capacity =? 1600) then None
  else if (rate <=? 0) || (1600 <? rate) || negb (rate mod 8 =? 0) then None
  else Some (mkSponge4 (repeat (repeat 0%N 200) 4) rate 0 false).
(** KeccakSpongetimes4.inc:85-92; there is no fast loop *)
Fixpoint absorb_blocks4 (rb : nat) (fuel : nat) (sts ds : list bytes) : res (list bytes * list bytes) :=
  match fuel with
  | O => OutOfFuel
  | S fuel' =>
    if rb <=? len4 ds
    then do sts' <- add_bytes4 sts ds 0 (N.of_nat rb); absorb_blocks4 rb fuel' (map f sts') (map (skipn rb) ds)
    else Ok (sts, ds)
  end.
(** SpongeAbsorb, KeccakSpongetimes4.inc:65-114 *)
Fixpoint absorb_loop4 (rb : nat) (fuel : nat) (sts : list bytes) (idx : nat) (ds : list bytes) : res (list bytes * nat) :=
  match fuel with
  | O => OutOfFuel
  | S fuel' =>
    if len4 ds =? 0 then Ok (sts, idx)
    else if (idx =? 0) && (rb <=? len4 ds)
    then do (sts', ds') <- absorb_blocks4 rb fuel sts ds; absorb_loop4 rb fuel' sts' idx ds'
    else
      let p0 := u32 (N.of_nat (len4 ds)) in
      let p := if N.ltb (N.of_nat rb) (u32 (p0 + N.of_nat idx)) then N.of_nat (rb - idx) else p0 in
      do sts' <- add_bytes4 sts ds idx p;
      let idx' := idx + N.to_nat p in
      if idx' =? rb then absorb_loop4 rb fuel' (map f sts') 0 (map (skipn (N.to_nat p)) ds)
      else absorb_loop4 rb fuel' sts' idx' (map (skipn (N.to_nat p)) ds)
  end.
(** SpongeAbsorb, KeccakSpongetimes4.inc:55-116 *)
Definition sponge4_absorb (fuel : nat) (s : sponge4) (ds : list bytes) : res sponge4 :=
  if sq_squeezing s then Ok s
  else do (sts, idx) <- absorb_loop4 (sq_rate s / 8) fuel (sq_states s) (sq_idx s) ds;
       Ok (mkSponge4 sts (sq_rate s) idx false).
(** SpongeAbsorbLastFewBits, KeccakSpongetimes4.inc:120-145 *)
Definition sponge4_last (s : sponge4) (delim : N) : res (option sponge4) :=
  let rb := sq_rate s / 8 in
  if N.eqb delim 0 then Ok None
  else if sq_squeezing s then Ok None
  else
    do sts <- add_byte4 (sq_states s) delim (sq_idx s);
    let sts := if N.leb 128 delim && (sq_idx s =? rb - 1) then map f sts else sts in
    do sts <- add_byte4 sts 128 (rb - 1);
    Ok (Some (mkSponge4 (map f sts) (sq_rate s) 0 true)).
(** KeccakSpongetimes4.inc:167-174 *)
Fixpoint squeeze_blocks4 (rb : nat) (fuel : nat) (sts : list bytes) (need : nat) : res (list bytes * list bytes * nat) :=
  match fuel with
  | O => OutOfFuel
  | S fuel' =>
    if rb <=? need
    then do o <- extract_bytes4 (map f sts) 0 (N.of_nat rb);
         do (o', sts', need') <- squeeze_blocks4 rb fuel' (map f sts) (need - rb); Ok (app4 o o', sts', need')
    else Ok (repeat [] (length sts), sts, need)
  end.
(** SpongeSqueeze, KeccakSpongetimes4.inc:159-193 *)
Fixpoint squeeze_loop4 (rb : nat) (fuel : nat) (sts : list bytes) (idx need : nat) : res (list bytes * list bytes * nat) :=
  match fuel with
  | O => OutOfFuel
  | S fuel' =>
    if need =? 0 then Ok (repeat [] (length sts), sts, idx)
    else if (idx =? rb) && (rb <=? need)
    then do (o, sts', need') <- squeeze_blocks4 rb fuel sts need;
         do (o', sts'', idx') <- squeeze_loop4 rb fuel' sts' idx need'; Ok (app4 o o', sts'', idx')
    else
      let (sts, idx) := if idx =? rb then (map f sts, 0) else (sts, idx) in
      let p0 := u32 (N.of_nat need) in
      let p := if N.ltb (N.of_nat rb) (u32 (p0 + N.of_nat idx)) then N.of_nat (rb - idx) else p0 in
      do o <- extract_bytes4 sts idx p;
      do (o', sts', idx') <- squeeze_loop4 rb fuel' sts (idx + N.to_nat p) (need - N.to_nat p); Ok (app4 o o', sts', idx')
  end.
(** SpongeSqueeze, KeccakSpongetimes4.inc:149-195 *)
Definition sponge4_squeeze (fuel : nat) (s : sponge4) (need : nat) : res (list bytes * sponge4) :=
  do s <- (if sq_squeezing s then Ok s else do s' <- sponge4_last s 1; Ok (match s' with Some s' => s' | None => s end));
  do (o, sts, idx) <- squeeze_loop4 (sq_rate s / 8) fuel (sq_states s) (sq_idx s) need;
  Ok (o, mkSponge4 sts (sq_rate s) idx (sq_squeezing s)).

(** Keccak_HashInstancetimes4, KeccakHashtimes4.h *)
Record khash4 : Type := mkKhash4 { kq_sponge : sponge4; kq_fixed : nat; kq_suffix : N }.
(** Keccak_HashInitializetimes4, KeccakHashtimes4.c:19-31 *)
Definition keccak4_initialize (rate capacity hashbitlen : nat) (suffix : N) : option khash4 :=
  if N.eqb suffix 0 then None
  else match sponge4_initialize rate capacity with Some s => Some (mkKhash4 s hashbitlen suffix) | None => None end.
(** hash_init_x4, kdf_shake.h:100-106 *)
Definition k_hash_init_x4 (digest_size : nat) : option khash4 :=
  if digest_size =? 32 then keccak4_initialize 1344 256 0 31 else keccak4_initialize 1088 512 0 31.
(** hash_update_x4, hash_update_x4_4, kdf_shake.h:108-118, Keccak_HashUpdatetimes4, KeccakHashtimes4.c:35-40: four inputs
    of equal length (one size argument) *)
Definition k_hash_update_x4 (fuel : nat) (k : khash4) (ds : list bytes) : res khash4 :=
  do s <- sponge4_absorb fuel (kq_sponge k) (map (firstn (bits_bytes (len4 ds))) ds); Ok (mkKhash4 s (kq_fixed k) (kq_suffix k)).
(** hash_final_x4, kdf_shake.h:132-134, Keccak_HashFinaltimes4, KeccakHashtimes4.c:44-51 *)
Definition k_hash_final_x4 (fuel : nat) (k : khash4) : res khash4 :=
  do s <- sponge4_last (kq_sponge k) (kq_suffix k);
  match s with
  | None => Ok k
  | Some s => do (o, s') <- sponge4_squeeze fuel s (kq_fixed k / 8);
              if len4 o =? 0 then Ok (mkKhash4 s' (kq_fixed k) (kq_suffix k)) else UB OutOfBounds
  end.
(** hash_squeeze_x4, hash_squeeze_x4_4, kdf_shake.h:136-146, Keccak_HashSqueezetimes4, KeccakHashtimes4.c:55-60 *)
Definition k_hash_squeeze_x4 (fuel : nat) (k : khash4) (len : nat) : res (list bytes * khash4) :=
  do (o, s) <- sponge4_squeeze fuel (kq_sponge k) (bits_bytes len); Ok (o, mkKhash4 s (kq_fixed k) (kq_suffix k)).
End Perm.
