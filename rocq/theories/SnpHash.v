(** The whole interface of keccak/KeccakHash.{h,c} and the one-shot function of KeccakSponge.inc, as in BitHashModel, but over an
    implementation of SnP (SnpSponge): the state is raw memory and every access to it is a call of the implementation. *)
From Coq Require Import Arith NArith String List Bool.
From Verif Require Import Prelude SpongeModel BitHashSpec BitHashModel SnpSponge Avx2Model Opt64Model StateModel.
Import ListNotations.
Local Open Scope nat_scope.
Local Open Scope list_scope.

(** the AVX2 code with the absorbing loop for any number of lanes (StateModel.asm_absorb, KeccakP-1600-AVX2.s:702-868); fuel bounds
    the blocks *)
Definition asm_fast_any (J : bytes -> junk) (fuel : nat) (m : bytes) (laneCount : nat) (d : bytes) : res (bytes * nat) :=
  do (m', o) <- asm_absorb J "KeccakF1600_FastLoop_Absorb" fuel m laneCount d;
  match o with [n] => Ok (m', N.to_nat n) | _ => UB OutOfBounds end.
Definition avx2_any (J : bytes -> junk) : snp := mkSnp (asm_init J) (asm_add_byte J) (asm_add_bytes J) (asm_extract J) (asm_permute J) (asm_fast_any J).

Section Snp.
Variable P : snp.

(** Keccak_HashInitialize, KeccakHash.c:23-38, and SpongeInitialize, KeccakSponge.inc:134-147; m: what the memory of the state holds
    before; None: a value other than KECCAK_SUCCESS, the instance is not touched *)
Definition hash_initialize (m : bytes) (rate capacity hashbitlen suffix : N) : res (option khash) :=
  if N.eqb suffix 0 then Ok None
  else if bad_rate rate capacity then Ok None
  else do m' <- snp_init P m; Ok (Some (mkKhash (mkSponge m' (N.to_nat rate) 0 false) (N.to_nat hashbitlen) suffix)).
(** Keccak_HashUpdate, KeccakHash.c:42-72; simplified as in BitHashModel.kb_update *)
Definition hash_update (fuel : nat) (k : khash) (d : bytes) (nbits : N) : res (status * khash) :=
  if sp_squeezing (kh_sponge k) then Ok (Fail, k)
  else if N.ltb (N.of_nat (List.length d)) (nbits / 8) then UB OutOfBounds
  else
    do s <- g_sponge_absorb P fuel (kh_sponge k) (firstn (N.to_nat (nbits / 8)) d);
    if N.eqb (nbits mod 8) 0 then Ok (Success, mkKhash s (kh_fixed k) (kh_suffix k))
    else
      match nth_error d (N.to_nat (nbits / 8)) with
      | None => UB OutOfBounds
      | Some last =>
        let two := last_bytes (nbits mod 8) last (kh_suffix k) in
        if N.eqb (N.land two 0xFF00) 0 then Ok (Success, mkKhash s (kh_fixed k) (N.land two 0xFF))
        else do s <- g_sponge_absorb P fuel s [N.land two 0xFF];
             Ok (Success, mkKhash s (kh_fixed k) (N.land (N.shiftr two 8) 0xFF))
      end.
(** Keccak_HashFinal, KeccakHash.c:76-85 *)
Definition hash_final (fuel : nat) (k : khash) : res (status * bytes * khash) :=
  do s <- g_sponge_last P (kh_sponge k) (kh_suffix k);
  match s with
  | None => Ok (Fail, [], k)
  | Some s => do (o, s') <- g_sponge_squeeze P fuel s (kh_fixed k / 8); Ok (Success, o, mkKhash s' (kh_fixed k) (kh_suffix k))
  end.
(** Keccak_HashSqueeze, KeccakHash.c:89-95 *)
Definition hash_squeeze (fuel : nat) (k : khash) (nbits : N) : res (status * bytes * khash) :=
  if negb (N.eqb (nbits mod 8) 0) then Ok (Fail, [], k)
  else do (o, s) <- g_sponge_squeeze P fuel (kh_sponge k) (N.to_nat (nbits / 8)); Ok (Success, o, mkKhash s (kh_fixed k) (kh_suffix k)).
Definition hash_call (fuel : nat) (k : khash) (c : call) : res (status * bytes * khash) :=
  match c with
  | Update d n => do (r, k') <- hash_update fuel k d n; Ok (r, [], k')
  | Final => hash_final fuel k
  | Squeeze n => hash_squeeze fuel k n
  end.
Fixpoint hash_calls (fuel : nat) (k : khash) (cs : list call) : res (list (status * bytes)) :=
  match cs with
  | [] => Ok []
  | c :: cs' => do (r, o, k') <- hash_call fuel k c; do l <- hash_calls fuel k' cs'; Ok ((r, o) :: l)
  end.
(** a client: Keccak_HashInitialize and then calls; None: initialization fails (the client stops) *)
Definition hash_session (fuel : nat) (m : bytes) (rate capacity hashbitlen suffix : N) (cs : list call) : res (option (list (status * bytes))) :=
  do k <- hash_initialize m rate capacity hashbitlen suffix;
  match k with None => Ok None | Some k => do l <- hash_calls fuel k cs; Ok (Some l) end.
(** the macros of KeccakHash.h:70-104 *)
Definition macro_session (fuel : nat) (m : bytes) (a : algorithm) (cs : list call) : res (option (list (status * bytes))) :=
  match a with
  | Shake128 => hash_session fuel m 1344 256 0 0x1F cs
  | Shake256 => hash_session fuel m 1088 512 0 0x1F cs
  | Sha3_224 => hash_session fuel m 1152 448 224 0x06 cs
  | Sha3_256 => hash_session fuel m 1088 512 256 0x06 cs
  | Sha3_384 => hash_session fuel m 832 768 384 0x06 cs
  | Sha3_512 => hash_session fuel m 576 1024 512 0x06 cs
  end.

(** the output loop of Sponge, KeccakSponge.inc:110-123 *)
Fixpoint sponge_output (rb : nat) (fuel : nat) (m : bytes) (need : nat) : res bytes :=
  match fuel with
  | O => OutOfFuel
  | S fuel' =>
    if rb <? need
    then do o <- snp_extract P m 0 (N.of_nat rb); do m' <- snp_permute P m; do o' <- sponge_output rb fuel' m' (need - rb); Ok (o ++ o')
    else snp_extract P m 0 (u32 (N.of_nat need))
  end.
(** Sponge, KeccakSponge.inc:36-128; m: what the uninitialised state on the stack holds; None: the return value 1 *)
Definition sponge_function (fuel : nat) (m : bytes) (rate capacity : N) (input : bytes) (suffix : N) (outlen : nat) : res (option bytes) :=
  let rb := N.to_nat (rate / 8) in
  if bad_rate rate capacity then Ok None
  else if N.eqb suffix 0 then Ok None
  else
    do m <- snp_init P m;
    do (m, input) <- (if (rb mod (1600 / 200) =? 0) && (rb <=? List.length input)
                      then do (m', j) <- snp_fast P fuel m (rb / (1600 / 200)) input; Ok (m', skipn j input)
                      else Ok (m, input));
    do (m, rest) <- g_absorb_blocks P rb fuel m input;
    let partial := u32 (N.of_nat (List.length rest)) in
    do m <- snp_add_bytes P m rest 0 partial;
    do m <- snp_add_byte P m suffix (N.to_nat partial);
    do m <- (if N.leb 128 suffix && N.eqb partial (N.of_nat (rb - 1)) then snp_permute P m else Ok m);
    do m <- snp_add_byte P m 128 (rb - 1);
    do m <- snp_permute P m;
    do o <- sponge_output rb fuel m outlen;
    Ok (Some o).
End Snp.
