(** Model of the whole interface of the hash library underneath kdf_shake.h: keccak/KeccakHash.{h,c}, KeccakHashtimes4.{h,c}
    and the one-shot function of KeccakSponge.inc, with any rate, any suffix, any number of bits and their return values.
    (SpongeModel has the part of it that kdf_shake.h uses: SHAKE, whole bytes, return values ignored.)
    unsigned int has 32 bits, size_t 64.  The calls a client can make and the return values are types of BitHashSpec. *)
From Coq Require Import Arith NArith List Bool Lia.
From Verif Require Import Prelude SpongeModel BitHashSpec.
Import ListNotations.

(** the tests of SpongeInitialize and of Sponge, KeccakSponge.inc:44-47, 136-139, and KeccakSpongetimes4.inc:40-43;
    rate + capacity is computed modulo 2^32 *)
Definition bad_rate (rate capacity : N) : bool :=
  negb (N.eqb (u32 (rate + capacity)) 1600) || (N.leb rate 0 || N.ltb 1600 rate || negb (N.eqb (rate mod 8) 0)).

(** Keccak_HashInitialize, KeccakHash.c:23-38, and SpongeInitialize, KeccakSponge.inc:134-147; None: a value other than
    KECCAK_SUCCESS, the instance is not touched *)
Definition kb_init (rate capacity hashbitlen suffix : N) : option khash :=
  if N.eqb suffix 0 then None
  else if bad_rate rate capacity then None
  else Some (mkKhash (mkSponge (repeat 0%N 200) (N.to_nat rate) 0 false) (N.to_nat hashbitlen) suffix).
(** Keccak_HashInitializetimes4, KeccakHashtimes4.c:19-31 *)
Definition kb_init4 (rate capacity hashbitlen suffix : N) : option khash4 :=
  if N.eqb suffix 0 then None
  else if bad_rate rate capacity then None
  else Some (mkKhash4 (mkSponge4 (repeat (repeat 0%N 200) 4) (N.to_nat rate) 0 false) (N.to_nat hashbitlen) suffix).
(** the macros of KeccakHash.h:70-104 and of KeccakHashtimes4.h *)
Definition init_macro (a : algorithm) : option khash :=
  match a with
  | Shake128 => kb_init 1344 256 0 0x1F
  | Shake256 => kb_init 1088 512 0 0x1F
  | Sha3_224 => kb_init 1152 448 224 0x06
  | Sha3_256 => kb_init 1088 512 256 0x06
  | Sha3_384 => kb_init 832 768 384 0x06
  | Sha3_512 => kb_init 576 1024 512 0x06
  end.
Definition init4_macro (a : algorithm) : option khash4 :=
  match a with
  | Shake128 => kb_init4 1344 256 0 0x1F
  | Shake256 => kb_init4 1088 512 0 0x1F
  | Sha3_224 => kb_init4 1152 448 224 0x06
  | Sha3_256 => kb_init4 1088 512 256 0x06
  | Sha3_384 => kb_init4 832 768 384 0x06
  | Sha3_512 => kb_init4 576 1024 512 0x06
  end.

(** delimitedLastBytes, KeccakHash.c:56-60: the low r bits of the last byte below the suffix *)
Definition last_bytes (r last suffix : N) : N := N.lor (N.land last (N.shiftl 1 r - 1)) (N.shiftl suffix r).

Section Perm.
Variable f : bytes -> bytes.

(** Keccak_HashUpdate, KeccakHash.c:42-72.  d: the caller's buffer.  A buffer shorter than the stated number of bits is UB
    at once (in the code: when the missing bytes are read). *)
Definition kb_update (fuel : nat) (k : khash) (d : bytes) (nbits : N) : res (status * khash) :=
  if sp_squeezing (kh_sponge k) then Ok (Fail, k)
  else if N.ltb (N.of_nat (length d)) (nbits / 8) then UB OutOfBounds
  else
    do s <- sponge_absorb f fuel (kh_sponge k) (firstn (N.to_nat (nbits / 8)) d);
    if N.eqb (nbits mod 8) 0 then Ok (Success, mkKhash s (kh_fixed k) (kh_suffix k))
    else
      match nth_error d (N.to_nat (nbits / 8)) with
      | None => UB OutOfBounds
      | Some last =>
        let two := last_bytes (nbits mod 8) last (kh_suffix k) in
        if N.eqb (N.land two 0xFF00) 0 then Ok (Success, mkKhash s (kh_fixed k) (N.land two 0xFF))
        else do s <- sponge_absorb f fuel s [N.land two 0xFF];
             Ok (Success, mkKhash s (kh_fixed k) (N.land (N.shiftr two 8) 0xFF))
      end.
(** Keccak_HashFinal, KeccakHash.c:76-85: what it returns, the bytes it writes to hashval (room for them is the caller's
    duty), the new instance *)
Definition kb_final (fuel : nat) (k : khash) : res (status * bytes * khash) :=
  do s <- sponge_last f (kh_sponge k) (kh_suffix k);
  match s with
  | None => Ok (Fail, [], k)
  | Some s => do (o, s') <- sponge_squeeze f fuel s (kh_fixed k / 8); Ok (Success, o, mkKhash s' (kh_fixed k) (kh_suffix k))
  end.
(** Keccak_HashSqueeze, KeccakHash.c:89-95 *)
Definition kb_squeeze (fuel : nat) (k : khash) (nbits : N) : res (status * bytes * khash) :=
  if negb (N.eqb (nbits mod 8) 0) then Ok (Fail, [], k)
  else do (o, s) <- sponge_squeeze f fuel (kh_sponge k) (N.to_nat (nbits / 8)); Ok (Success, o, mkKhash s (kh_fixed k) (kh_suffix k)).

(** a client: a sequence of calls, and for each what it returns and what it writes *)
Definition kb_call (fuel : nat) (k : khash) (c : call) : res (status * bytes * khash) :=
  match c with
  | Update d n => do (r, k') <- kb_update fuel k d n; Ok (r, [], k')
  | Final => kb_final fuel k
  | Squeeze n => kb_squeeze fuel k n
  end.
Fixpoint kb_calls (fuel : nat) (k : khash) (cs : list call) : res (list (status * bytes)) :=
  match cs with
  | [] => Ok []
  | c :: cs' => do (r, o, k') <- kb_call fuel k c; do l <- kb_calls fuel k' cs'; Ok ((r, o) :: l)
  end.

(** Keccak_HashUpdatetimes4, KeccakHashtimes4.c:35-40: four buffers *)
Definition kb_update4 (fuel : nat) (k : khash4) (ds : list bytes) (nbits : N) : res (status * khash4) :=
  if negb (N.eqb (nbits mod 8) 0) then Ok (Fail, k)
  else if sq_squeezing (kq_sponge k) then Ok (Fail, k)
  else if existsb (fun d => N.ltb (N.of_nat (length d)) (nbits / 8)) ds then UB OutOfBounds
  else do s <- sponge4_absorb f fuel (kq_sponge k) (map (firstn (N.to_nat (nbits / 8))) ds);
       Ok (Success, mkKhash4 s (kq_fixed k) (kq_suffix k)).
(** Keccak_HashFinaltimes4, KeccakHashtimes4.c:44-51: four digests *)
Definition kb_final4 (fuel : nat) (k : khash4) : res (status * list bytes * khash4) :=
  do s <- sponge4_last f (kq_sponge k) (kq_suffix k);
  match s with
  | None => Ok (Fail, repeat [] 4, k)
  | Some s => do (o, s') <- sponge4_squeeze f fuel s (kq_fixed k / 8); Ok (Success, o, mkKhash4 s' (kq_fixed k) (kq_suffix k))
  end.
(** Keccak_HashSqueezetimes4, KeccakHashtimes4.c:55-60 *)
Definition kb_squeeze4 (fuel : nat) (k : khash4) (nbits : N) : res (status * list bytes * khash4) :=
  if negb (N.eqb (nbits mod 8) 0) then Ok (Fail, repeat [] 4, k)
  else do (o, s) <- sponge4_squeeze f fuel (kq_sponge k) (N.to_nat (nbits / 8)); Ok (Success, o, mkKhash4 s (kq_fixed k) (kq_suffix k)).
Definition kb_call4 (fuel : nat) (k : khash4) (c : call4) : res (status * list bytes * khash4) :=
  match c with
  | Update4 ds n => do (r, k') <- kb_update4 fuel k ds n; Ok (r, repeat [] 4, k')
  | Final4 => kb_final4 fuel k
  | Squeeze4 n => kb_squeeze4 fuel k n
  end.
Fixpoint kb_calls4 (fuel : nat) (k : khash4) (cs : list call4) : res (list (status * list bytes)) :=
  match cs with
  | [] => Ok []
  | c :: cs' => do (r, o, k') <- kb_call4 fuel k c; do l <- kb_calls4 fuel k' cs'; Ok ((r, o) :: l)
  end.

(** the output loop of Sponge, KeccakSponge.inc:110-123: whole blocks while more than a block is wanted, then the rest *)
Fixpoint oneshot_squeeze (rb : nat) (fuel : nat) (st : bytes) (need : nat) : res bytes :=
  match fuel with
  | O => OutOfFuel
  | S fuel' =>
    if rb <? need
    then do o <- extract_bytes st 0 (N.of_nat rb); do o' <- oneshot_squeeze rb fuel' (f st) (need - rb); Ok (o ++ o')
    else extract_bytes st 0 (u32 (N.of_nat need))
  end.
(** Sponge, KeccakSponge.inc:36-128; None: the return value 1, nothing is written.  The fast loop for whole lanes (lines
    54-62) and the loop after it (63-71) are one loop here, as in SpongeModel.absorb_blocks. *)
Definition oneshot (fuel : nat) (rate capacity : N) (input : bytes) (suffix : N) (outlen : nat) : res (option bytes) :=
  let rb := N.to_nat (rate / 8) in
  if bad_rate rate capacity then Ok None
  else if N.eqb suffix 0 then Ok None
  else
    do (st, rest) <- absorb_blocks f rb fuel (repeat 0%N 200) input;
    let partial := u32 (N.of_nat (length rest)) in
    do st <- add_bytes st rest 0 partial;
    do st <- add_byte st suffix (N.to_nat partial);
    let st := if N.leb 128 suffix && N.eqb partial (N.of_nat (rb - 1)) then f st else st in
    do st <- add_byte st 128 (rb - 1);
    do o <- oneshot_squeeze rb fuel (f st) outlen;
    Ok (Some o).
End Perm.
