(** Model of keccak/opt64 below the sponge: the functions of KeccakP-1600-opt64.c that initialise a state, add bytes to it and
    extract bytes from it (macros of SnP-Relaned.h), the fast absorbing loop, and the serial four-way version
    PlSnP-Fallback.inc (KeccakP-1600-times4-on1.c).  The permutation is in KeccakModel.  The macros PLATFORM_BYTE_ORDER and
    IS_LITTLE_ENDIAN are not defined anywhere in the repository, so the branches for little-endian byte order are always
    compiled.  No lane complementing, NO_MISALIGNED_ACCESSES not defined.  unsigned int arguments are given as nat or N below
    2^32.  This code is compiled when USE_AVX2 is off. *)
From Coq Require Import Arith NArith List Bool.
From Verif Require Import Prelude SpongeModel KeccakModel SnpMem SnpSponge.
Import ListNotations.

(** KeccakP1600_Initialize, KeccakP-1600-opt64.c:74-84: memset(state, 0, 200) *)
Definition opt_init (m : bytes) : res bytes := if 200 <=? length m then Ok (repeat 0%N 200 ++ skipn 200 m) else UB OutOfBounds.
(** KeccakP1600_AddBytesInLane, KeccakP-1600-opt64.c:88-109 *)
Definition add_bytes_in_lane (m : bytes) (lanePosition : nat) (data : bytes) (offset length : nat) : res bytes :=
  if length =? 0 then Ok m
  else
    do lane <- (if length =? 1 then get data 0 else load_part data length);
    do lane <- shl64 lane (offset * 8);
    xor64 m lanePosition lane.
(** one line of KeccakP1600_AddLanes: ((uint64_t * )state)[i] ^= ((uint64_t * )data)[i] *)
Definition xor_lane (data m : bytes) (i : nat) : res bytes := do b <- load64 data i; xor64 m i b.
(** its loops for (; (i + step) <= laneCount; i += step) with step = 8, 4, 2 *)
Fixpoint add_lanes_by (step fuel : nat) (m data : bytes) (i laneCount : nat) : res (bytes * nat) :=
  match fuel with
  | O => OutOfFuel
  | S fuel' =>
    if i + step <=? laneCount
    then do m' <- foldM (fun m k => xor_lane data m (i + k)) (seq 0 step) m; add_lanes_by step fuel' m' data (i + step) laneCount
    else Ok (m, i)
  end.
(** KeccakP1600_AddLanes, KeccakP-1600-opt64.c:113-162 *)
Definition add_lanes (m data : bytes) (laneCount : nat) : res bytes :=
  do (m, i) <- add_lanes_by 8 (S laneCount) m data 0 laneCount;
  do (m, i) <- add_lanes_by 4 (S laneCount) m data i laneCount;
  do (m, i) <- add_lanes_by 2 (S laneCount) m data i laneCount;
  if i <? laneCount then xor_lane data m i else Ok m.
(** the loop of the macro SnP_AddBytes, SnP-Relaned.h:36-51; data is _curData *)
Fixpoint relaned_add (fuel : nat) (m data : bytes) (sizeLeft lanePosition offsetInLane : nat) : res bytes :=
  match fuel with
  | O => OutOfFuel
  | S fuel' =>
    if 0 <? sizeLeft
    then
      let bytesInLane := 8 - offsetInLane in
      let bytesInLane := if sizeLeft <? bytesInLane then sizeLeft else bytesInLane in
      do m' <- add_bytes_in_lane m lanePosition data offsetInLane bytesInLane;
      relaned_add fuel' m' (skipn bytesInLane data) (sizeLeft - bytesInLane) (lanePosition + 1) 0
    else Ok m
  end.
(** KeccakP1600_AddBytes, KeccakP-1600-opt64.c:177-181, SnP-Relaned.h:26-52 *)
Definition opt_add_bytes (m data : bytes) (offset : nat) (len : N) : res bytes :=
  let length := N.to_nat len in
  if offset =? 0
  then do m' <- add_lanes m data (length / 8); add_bytes_in_lane m' (length / 8) (skipn (length / 8 * 8) data) 0 (length mod 8)
  else relaned_add (S length) m data length (offset / 8) (offset mod 8).
(** KeccakP1600_AddByte, KeccakP-1600-SnP.h:42-43 *)
Definition opt_add_byte (m : bytes) (byte : N) (offset : nat) : res bytes := xor8 m offset byte.
(** KeccakP1600_ExtractBytesInLane, KeccakP-1600-opt64.c:355-379; the lane is read even when length is 0 *)
Definition extract_bytes_in_lane (m : bytes) (lanePosition offset length : nat) : res bytes :=
  do lane <- load64 m lanePosition; read (le_bytes 8 lane) offset length.
(** KeccakP1600_ExtractLanes, KeccakP-1600-opt64.c:392-422 *)
Definition extract_lanes (m : bytes) (laneCount : nat) : res bytes := read m 0 (laneCount * 8).
(** the loop of the macro SnP_ExtractBytes, SnP-Relaned.h:92-107 *)
Fixpoint relaned_extract (fuel : nat) (m : bytes) (sizeLeft lanePosition offsetInLane : nat) : res bytes :=
  match fuel with
  | O => OutOfFuel
  | S fuel' =>
    if 0 <? sizeLeft
    then
      let bytesInLane := 8 - offsetInLane in
      let bytesInLane := if sizeLeft <? bytesInLane then sizeLeft else bytesInLane in
      do o <- extract_bytes_in_lane m lanePosition offsetInLane bytesInLane;
      do o' <- relaned_extract fuel' m (sizeLeft - bytesInLane) (lanePosition + 1) 0; Ok (o ++ o')
    else Ok []
  end.
(** KeccakP1600_ExtractBytes, KeccakP-1600-opt64.c:426-430, SnP-Relaned.h:82-108 *)
Definition opt_extract (m : bytes) (offset : nat) (len : N) : res bytes :=
  let length := N.to_nat len in
  if offset =? 0
  then do o <- extract_lanes m (length / 8); do o' <- extract_bytes_in_lane m (length / 8) 0 (length mod 8); Ok (o ++ o')
  else relaned_extract (S length) m length (offset / 8) (offset mod 8).
(** KeccakP1600_Permute_24rounds, KeccakP-1600-opt64.c:331-339, reads and writes 25 lanes *)
Definition opt_permute (m : bytes) : res bytes := if length m =? 200 then Ok (permute_24rounds m) else UB OutOfBounds.

(** addInput(X, input, laneCount), KeccakP-1600-64.macros:543-709: which lanes, in the order ba, be, ..., su, are xored with
    which input words *)
Definition add_input (laneCount : nat) : list (nat * nat) :=
  if laneCount =? 21 then [(0, 0); (1, 1); (2, 2); (3, 3); (4, 4); (5, 5); (6, 6); (7, 7); (8, 8); (9, 9); (10, 10); (11, 11); (12, 12); (13, 13); (14, 14); (15, 15); (16, 16); (17, 17); (18, 18); (19, 19); (20, 20)]
  else if laneCount <? 16 then if laneCount <? 8 then if laneCount <? 4 then if laneCount <? 2 then if laneCount <? 1 then []
          else [(0, 0)]
        else [(0, 0); (1, 1)] ++ (if laneCount <? 3 then []
          else [(2, 2)])
      else [(0, 0); (1, 1); (2, 2); (3, 3)] ++ (if laneCount <? 6 then if laneCount <? 5 then []
          else [(4, 4)]
        else [(4, 4); (5, 5)] ++ (if laneCount <? 7 then []
          else [(6, 6)]))
    else [(0, 0); (1, 1); (2, 2); (3, 3); (4, 4); (5, 5); (6, 6); (7, 7)] ++ (if laneCount <? 12 then if laneCount <? 10 then if laneCount <? 9 then []
          else [(8, 8)]
        else [(8, 8); (9, 9)] ++ (if laneCount <? 11 then []
          else [(10, 10)])
      else [(8, 8); (9, 9); (10, 10); (11, 11)] ++ (if laneCount <? 14 then if laneCount <? 13 then []
          else [(12, 12)]
        else [(12, 12); (13, 13)] ++ (if laneCount <? 15 then []
          else [(14, 14)])))
  else [(0, 0); (1, 1); (2, 2); (3, 3); (4, 4); (5, 5); (6, 6); (7, 7); (8, 8); (9, 9); (10, 10); (11, 11); (12, 12); (13, 13); (14, 14); (15, 15)] ++ (if laneCount <? 24 then if laneCount <? 20 then if laneCount <? 18 then if laneCount <? 17 then []
          else [(16, 16)]
        else [(16, 16); (17, 17)] ++ (if laneCount <? 19 then []
          else [(18, 18)])
      else [(16, 16); (17, 17); (18, 18); (19, 19)] ++ (if laneCount <? 22 then if laneCount <? 21 then []
          else [(20, 20)]
        else [(20, 20); (21, 21)] ++ (if laneCount <? 23 then []
          else [(22, 22)]))
    else [(16, 16); (17, 17); (18, 18); (19, 19); (20, 20); (21, 21); (22, 22); (23, 23)] ++ (if laneCount <? 25 then []
      else [(24, 24)])).
Definition lanes_list (A : lanes) : list N :=
  [l_ba A; l_be A; l_bi A; l_bo A; l_bu A; l_ga A; l_ge A; l_gi A; l_go A; l_gu A; l_ka A; l_ke A; l_ki A; l_ko A; l_ku A; l_ma A; l_me A; l_mi A; l_mo A; l_mu A; l_sa A; l_se A; l_si A; l_so A; l_su A].
Definition list_lanes (l : list N) : lanes :=
  mkLanes (nth 0 l 0%N) (nth 1 l 0%N) (nth 2 l 0%N) (nth 3 l 0%N) (nth 4 l 0%N) (nth 5 l 0%N) (nth 6 l 0%N) (nth 7 l 0%N) (nth 8 l 0%N) (nth 9 l 0%N) (nth 10 l 0%N) (nth 11 l 0%N) (nth 12 l 0%N) (nth 13 l 0%N) (nth 14 l 0%N) (nth 15 l 0%N) (nth 16 l 0%N) (nth 17 l 0%N) (nth 18 l 0%N) (nth 19 l 0%N) (nth 20 l 0%N) (nth 21 l 0%N) (nth 22 l 0%N) (nth 23 l 0%N) (nth 24 l 0%N).
(** the loop of KeccakF1600_FastLoop_Absorb, KeccakP-1600-opt64.c:529-532 *)
Fixpoint opt_fast_loop (fuel : nat) (A : lanes) (laneCount : nat) (data : bytes) : res (lanes * bytes) :=
  match fuel with
  | O => OutOfFuel
  | S fuel' =>
    if laneCount * 8 <=? length data
    then
      do l <- foldM (fun l p => do a <- get l (fst p); do b <- load64 data (snd p); set l (fst p) (N.lxor a b)) (add_input laneCount) (lanes_list A);
      opt_fast_loop fuel' (rounds24 (list_lanes l)) laneCount (skipn (laneCount * 8) data)
    else Ok (A, data)
  end.
(** KeccakF1600_FastLoop_Absorb, KeccakP-1600-opt64.c:518-534 *)
Definition opt_fast (fuel : nat) (m : bytes) (laneCount : nat) (data : bytes) : res (bytes * nat) :=
  if length m =? 200
  then do (A, rest) <- opt_fast_loop fuel (copy_from_state m) laneCount data; Ok (copy_to_state A, length data - length rest)
  else UB OutOfBounds.
Definition opt64 : snp := mkSnp opt_init opt_add_byte opt_add_bytes opt_extract opt_permute opt_fast.

(** ** four states one after the other, PlSnP-Fallback.inc *)

(** stateWithIndex(i), PlSnP-Fallback.inc:48-50: SnP_stateOffset is 200.  An access outside the 200 bytes of the state is UB,
    even when it is inside the memory of the four states. *)
Definition with_state (m : bytes) (i : nat) (g : bytes -> res bytes) : res bytes :=
  do st <- read m (200 * i) 200; do st' <- g st;
  if length st' =? 200 then Ok (firstn (200 * i) m ++ st' ++ skipn (200 * i + 200) m) else UB OutOfBounds.
(** PlSnP_InitializeAll, PlSnP-Fallback.inc:71-81 *)
Definition opt4_init (m : bytes) : res bytes := foldM (fun m i => with_state m i opt_init) (seq 0 4) m.
(** PlSnP_AddByte, PlSnP-Fallback.inc:83-90 *)
Definition opt4_add_byte (m : bytes) (i : nat) (b : N) (off : nat) : res bytes := with_state m i (fun st => opt_add_byte st b off).
(** PlSnP_AddBytes, PlSnP-Fallback.inc:92-99 *)
Definition opt4_add_bytes (m : bytes) (i : nat) (d : bytes) (off : nat) (len : N) : res bytes := with_state m i (fun st => opt_add_bytes st d off len).
(** PlSnP_ExtractBytes, PlSnP-Fallback.inc:205-212 *)
Definition opt4_extract (m : bytes) (i off : nat) (len : N) : res bytes := do st <- read m (200 * i) 200; opt_extract st off len.
(** PlSnP_PermuteAll, PlSnP-Fallback.inc:147-158 *)
Definition opt4_permute (m : bytes) : res bytes := foldM (fun m i => with_state m i opt_permute) (seq 0 4) m.
Definition opt64x4 : plsnp := mkPlsnp opt4_init opt4_add_byte opt4_add_bytes opt4_extract opt4_permute.
