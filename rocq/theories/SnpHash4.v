(** The whole interface of keccak/KeccakHashtimes4.{h,c}, as in BitHashModel, but over an implementation of PlSnP (SnpSponge): the four
    states are raw memory and every access to them is a call of the implementation. *)
From Coq Require Import Arith NArith List Bool.
From Verif Require Import Prelude SpongeModel BitHashSpec BitHashModel SnpSponge.
Import ListNotations.

Section Plsnp.
Variable Q : plsnp.

(** Keccak_HashInitializetimes4, KeccakHashtimes4.c:19-31, and SpongeInitialize, KeccakSpongetimes4.inc:38-51; m: what the memory of
    the states holds before; None: a value other than KECCAK_SUCCESS, the instance is not touched.  Keccak_HashInstancetimes4 has the
    fields of Keccak_HashInstance. *)
Definition hash4_initialize (m : bytes) (rate capacity hashbitlen suffix : N) : res (option khash) :=
  if N.eqb suffix 0 then Ok None
  else if bad_rate rate capacity then Ok None
  else do m' <- pl_init Q m; Ok (Some (mkKhash (mkSponge m' (N.to_nat rate) 0 false) (N.to_nat hashbitlen) suffix)).
(** Keccak_HashUpdatetimes4, KeccakHashtimes4.c:35-40; simplified as in BitHashModel.kb_update4 *)
Definition hash4_update (fuel : nat) (k : khash) (ds : list bytes) (nbits : N) : res (status * khash) :=
  if negb (N.eqb (nbits mod 8) 0) then Ok (Fail, k)
  else if sp_squeezing (kh_sponge k) then Ok (Fail, k)
  else if existsb (fun d => N.ltb (N.of_nat (length d)) (nbits / 8)) ds then UB OutOfBounds
  else do s <- g_sponge4_absorb Q fuel (kh_sponge k) (map (firstn (N.to_nat (nbits / 8))) ds);
       Ok (Success, mkKhash s (kh_fixed k) (kh_suffix k)).
(** Keccak_HashFinaltimes4, KeccakHashtimes4.c:44-51 *)
Definition hash4_final (fuel : nat) (k : khash) : res (status * list bytes * khash) :=
  do s <- g_sponge4_last Q (kh_sponge k) (kh_suffix k);
  match s with
  | None => Ok (Fail, repeat [] 4, k)
  | Some s => do (o, s') <- g_sponge4_squeeze Q fuel s (kh_fixed k / 8); Ok (Success, o, mkKhash s' (kh_fixed k) (kh_suffix k))
  end.
(** Keccak_HashSqueezetimes4, KeccakHashtimes4.c:55-60 *)
Definition hash4_squeeze (fuel : nat) (k : khash) (nbits : N) : res (status * list bytes * khash) :=
  if negb (N.eqb (nbits mod 8) 0) then Ok (Fail, repeat [] 4, k)
  else do (o, s) <- g_sponge4_squeeze Q fuel (kh_sponge k) (N.to_nat (nbits / 8)); Ok (Success, o, mkKhash s (kh_fixed k) (kh_suffix k)).
Definition hash4_call (fuel : nat) (k : khash) (c : call4) : res (status * list bytes * khash) :=
  match c with
  | Update4 ds n => do (r, k') <- hash4_update fuel k ds n; Ok (r, repeat [] 4, k')
  | Final4 => hash4_final fuel k
  | Squeeze4 n => hash4_squeeze fuel k n
  end.
Fixpoint hash4_calls (fuel : nat) (k : khash) (cs : list call4) : res (list (status * list bytes)) :=
  match cs with
  | [] => Ok []
  | c :: cs' => do (r, o, k') <- hash4_call fuel k c; do l <- hash4_calls fuel k' cs'; Ok ((r, o) :: l)
  end.
(** a client: Keccak_HashInitializetimes4 and then calls; None: initialization fails (the client stops) *)
Definition hash4_session (fuel : nat) (m : bytes) (rate capacity hashbitlen suffix : N) (cs : list call4) : res (option (list (status * list bytes))) :=
  do k <- hash4_initialize m rate capacity hashbitlen suffix;
  match k with None => Ok None | Some k => do l <- hash4_calls fuel k cs; Ok (Some l) end.
(** the macros of KeccakHashtimes4.h:51-85 *)
Definition macro4_session (fuel : nat) (m : bytes) (a : algorithm) (cs : list call4) : res (option (list (status * list bytes))) :=
  match a with
  | Shake128 => hash4_session fuel m 1344 256 0 0x1F cs
  | Shake256 => hash4_session fuel m 1088 512 0 0x1F cs
  | Sha3_224 => hash4_session fuel m 1152 448 224 0x06 cs
  | Sha3_256 => hash4_session fuel m 1088 512 256 0x06 cs
  | Sha3_384 => hash4_session fuel m 832 768 384 0x06 cs
  | Sha3_512 => hash4_session fuel m 576 1024 512 0x06 cs
  end.
End Plsnp.
