(** Model of /repo/aes.cpp.
    An __m128i is the list of its 16 bytes, byte 0 first (the order of _mm_loadu/_mm_storeu).
    The instructions are modelled from Intel's definitions; the C++ code is unrolled, the model
    folds over the list of round constants / round keys that the unrolled code spells out. *)
From Coq Require Import Arith NArith List Bool Lia.
From Verif Require Import Prelude Clmul Gf8 AesSpec.
Import ListNotations.
Local Open Scope N_scope.

(** ** SSE / AES-NI instructions *)
Definition reg := bytes.
Definition xor128 (a b : reg) : reg := xorl a b.                        (* _mm_xor_si128 *)
Definition slli4 (a : reg) : reg := [0;0;0;0] ++ firstn 12 a.            (* _mm_slli_si128(a, 4) *)
Definition dword (a : reg) (i : nat) : bytes := slice a (4 * i) 4.
Definition shuffle_all (a : reg) (i : nat) : reg :=                      (* _mm_shuffle_epi32 with 0xff / 0xaa / 0x55 *)
  dword a i ++ dword a i ++ dword a i ++ dword a i.
Definition shuffle_pd0 (a b : reg) : reg := firstn 8 a ++ firstn 8 b.    (* _mm_shuffle_pd(a, b, 0) *)
Definition shuffle_pd1 (a b : reg) : reg := skipn 8 a ++ firstn 8 b.     (* _mm_shuffle_pd(a, b, 1) *)
Definition shuffle_epi8 (a : reg) (idx : list nat) : reg :=              (* _mm_shuffle_epi8; idx lowest first *)
  map (fun i => nth i a 0) idx.
Definition extract_epi8 (a : reg) (i : nat) : N := nth i a 0.
Definition insert_epi8 (a : reg) (v : N) (i : nat) : reg := upd a i (N.land v 0xff).
(** _mm_aeskeygenassist_si128: X1 = bytes 4..7, X3 = bytes 12..15;
    [SubWord X1; RotWord(SubWord X1) ^ rcon; SubWord X3; RotWord(SubWord X3) ^ rcon] *)
Definition subword (w : bytes) : bytes := map sbox w.
Definition rotword (w : bytes) : bytes := match w with a :: r => r ++ [a] | [] => [] end.
Definition xor_rcon (w : bytes) (rc : N) : bytes :=
  match w with a :: r => N.lxor a rc :: r | [] => [] end.
Definition aeskeygenassist (a : reg) (rc : N) : reg :=
  subword (dword a 1) ++ xor_rcon (rotword (subword (dword a 1))) rc ++
  subword (dword a 3) ++ xor_rcon (rotword (subword (dword a 3))) rc.
(** AESENC: ShiftRows, SubBytes, MixColumns, xor key; AESENCLAST without MixColumns; AESIMC: InvMixColumns *)
Definition sr_idx : list nat := [0;5;10;15;4;9;14;3;8;13;2;7;12;1;6;11]%nat.
Definition mixcol (f : N -> N -> N -> N -> N) (w : bytes) : bytes :=
  match w with
  | [a; b; c; d] => [f a b c d; f b c d a; f c d a b; f d a b c]
  | _ => []
  end.
Definition mc_byte (a b c d : N) : N := N.lxor (fmul 2 a) (N.lxor (fmul 3 b) (N.lxor c d)).
Definition imc_byte (a b c d : N) : N :=
  N.lxor (fmul 14 a) (N.lxor (fmul 11 b) (N.lxor (fmul 13 c) (fmul 9 d))).
Definition columns (g : bytes -> bytes) (a : reg) : reg :=
  g (dword a 0) ++ g (dword a 1) ++ g (dword a 2) ++ g (dword a 3).
Definition aesenc (a k : reg) : reg :=
  xor128 (columns (mixcol mc_byte) (map sbox (shuffle_epi8 a sr_idx))) k.
Definition aesenclast (a k : reg) : reg := xor128 (map sbox (shuffle_epi8 a sr_idx)) k.
Definition aesimc (a : reg) : reg := columns (mixcol imc_byte) a.

(** _mm_srli_epi32 / _mm_slli_epi32: shifts of the four 32-bit lanes *)
Definition srli_epi32 (a : reg) (k : N) : reg :=
  columns (fun w => le_bytes 4 (N.shiftr (le_word w) k)) a.
Definition slli_epi32 (a : reg) (k : N) : reg :=
  columns (fun w => le_bytes 4 (N.shiftl (le_word w) k)) a.
Definition and_set1 (a : reg) (v : N) : reg := map (fun b => N.land v b) a.
Fixpoint orl (a b : bytes) : bytes :=
  match a, b with x :: a', y :: b' => N.lor x y :: orl a' b' | _, _ => [] end.
(** macros _mm_srli_epi8, _mm_slli_epi8, _mm_rotl_epi8, aes.cpp:355-362 *)
Definition srli_epi8 (a : reg) (k : N) : reg := and_set1 (srli_epi32 a k) (N.shiftr 0xff k).
Definition slli_epi8 (a : reg) (k : N) : reg := and_set1 (slli_epi32 a k) (N.land (N.shiftl 0xff k) 0xff).
Definition rotl_epi8 (a : reg) (k : N) : reg := orl (slli_epi8 a k) (srli_epi8 a (8 - k)).

(** ROTL8, aes.cpp:10, on a uint8_t *)
Definition rotl8 (x k : N) : N := N.lor (N.land (N.shiftl x k) 0xff) (N.shiftr x (8 - k)).
(** t ^ ROTL8(t,1) ^ ... ^ ROTL8(t,4), e.g. aes.cpp:98 *)
Definition affine_lin (t : N) : N :=
  N.lxor (N.lxor (N.lxor (N.lxor t (rotl8 t 1)) (rotl8 t 2)) (rotl8 t 3)) (rotl8 t 4).
Definition AFFINE_CONST : N := 0x63.                                     (* aes.cpp:11 *)

(** ** Key-expansion helpers *)
(** aes_128_key_expansion, aes.cpp:43-49 *)
Definition aes_128_key_expansion (key keygened : reg) : reg :=
  let keygened := shuffle_all keygened 3 in
  let key := xor128 key (slli4 key) in
  let key := xor128 key (slli4 key) in
  let key := xor128 key (slli4 key) in
  xor128 key keygened.
(** KEY_192_ASSIST, aes.cpp:51-65: returns (temp1, temp3); the value left in temp2 is dead *)
Definition KEY_192_ASSIST (temp1 temp2 temp3 : reg) : reg * reg :=
  let temp2 := shuffle_all temp2 1 in
  let temp4 := slli4 temp1 in
  let temp1 := xor128 temp1 temp4 in
  let temp4 := slli4 temp4 in
  let temp1 := xor128 temp1 temp4 in
  let temp4 := slli4 temp4 in
  let temp1 := xor128 temp1 temp4 in
  let temp1 := xor128 temp1 temp2 in
  let temp2 := shuffle_all temp1 3 in
  let temp4 := slli4 temp3 in
  let temp3 := xor128 temp3 temp4 in
  let temp3 := xor128 temp3 temp2 in
  (temp1, temp3).
(** KEY_256_ASSIST_1, aes.cpp:66-76 *)
Definition KEY_256_ASSIST_1 (temp1 temp2 : reg) : reg :=
  let temp2 := shuffle_all temp2 3 in
  let temp4 := slli4 temp1 in
  let temp1 := xor128 temp1 temp4 in
  let temp4 := slli4 temp4 in
  let temp1 := xor128 temp1 temp4 in
  let temp4 := slli4 temp4 in
  let temp1 := xor128 temp1 temp4 in
  xor128 temp1 temp2.
(** KEY_256_ASSIST_2, aes.cpp:77-87 *)
Definition KEY_256_ASSIST_2 (temp1 temp3 : reg) : reg :=
  let temp2 := shuffle_all temp1 2 in
  let temp1 := slli4 temp3 in
  let temp3 := xor128 temp3 temp1 in
  let temp1 := slli4 temp1 in
  let temp3 := xor128 temp3 temp1 in
  let temp1 := slli4 temp1 in
  let temp3 := xor128 temp3 temp1 in
  xor128 temp3 temp2.

(** round constants in the order of the code *)
Definition rcons128 : list N := [1; 2; 4; 8; 0x10; 0x20; 0x40; 0x80; 0x1B; 0x36].

(** ** Plain evaluation: [None] means "return false" *)
Definition obind {A B} (x : option A) (f : A -> option B) : option B :=
  match x with Some a => f a | None => None end.
(** check_for_zeros_KS (dword 3), check_for_zeros_KS_192 (dword 1), check_for_zeros, aes.cpp:203-225 *)
Definition has_zero (l : bytes) : bool := existsb (fun b => b =? 0) l.
Definition check_zeros {A} (l : bytes) (k : option A) : option A := if has_zero l then None else k.
Definition check_for_zeros_KS {A} (m : reg) (k : option A) := check_zeros (dword m 3) k.
Definition check_for_zeros_KS_192 {A} (m : reg) (k : option A) := check_zeros (dword m 1) k.
Definition check_for_zeros {A} (m : reg) (k : option A) := check_zeros m k.

(** the encryption rounds of aes_N_aesni, aes.cpp:411-435 (128), 702-731 (192), 1113-1146 (256):
    [ks] is the key schedule; [m] the state after AddRoundKey(0) *)
Fixpoint enc_rounds (m : reg) (ks : list reg) : option reg :=
  check_for_zeros m
    match ks with
    | [] => None
    | [k] => Some (aesenclast m k)
    | k :: ks' => enc_rounds (aesenc m k) ks'
    end.
Definition encrypt (ks : list reg) (plaintext : reg) : option reg :=
  match ks with
  | [] => None
  | k0 :: ks' => enc_rounds (xor128 plaintext k0) ks'
  end.

(** key schedule in aes_128_aesni, aes.cpp:387-409 *)
Fixpoint ks128 (key : reg) (rcs : list N) : option (list reg) :=
  match rcs with
  | [] => Some [key]
  | rc :: rcs' =>
    check_for_zeros_KS key
      (obind (ks128 (aes_128_key_expansion key (aeskeygenassist key rc)) rcs')
             (fun ks => Some (key :: ks)))
  end.
Definition aes_128_aesni (key plaintext : bytes) : option bytes :=
  obind (ks128 key rcons128) (fun ks => encrypt ks plaintext).

(** AES_192_Key_Expansion, aes.cpp:639-691.  One pass of the loop is the code for two consecutive
    round constants; [t3] becomes the low half of the register completed by the next pass. *)
Definition rcons192 : list (N * N) := [(1, 2); (4, 8); (0x10, 0x20); (0x40, 0x80)].
Fixpoint ks192 (temp1 temp3 : reg) (rcs : list (N * N)) : option (list reg) :=
  match rcs with
  | [] => Some [temp1]
  | (ra, rb) :: rcs' =>
    check_for_zeros_KS_192 temp3
      (let '(t1, t3) := KEY_192_ASSIST temp1 (aeskeygenassist temp3 ra) temp3 in
       let k1 := shuffle_pd0 temp3 t1 in
       let k2 := shuffle_pd1 t1 t3 in
       check_for_zeros_KS_192 t3
         (let '(t1', t3') := KEY_192_ASSIST t1 (aeskeygenassist t3 rb) t3 in
          obind (ks192 t1' t3' rcs') (fun ks => Some (temp1 :: k1 :: k2 :: ks))))
  end.
Definition aes_192_aesni (key plaintext : bytes) : option bytes :=
  let key_tmp := firstn 24 key ++ zeros 8 in
  obind (ks192 (firstn 16 key_tmp) (skipn 16 key_tmp) rcons192) (fun ks => encrypt ks plaintext).

(** AES_256_Key_Expansion, aes.cpp:1052-1106 *)
Definition rcons256 : list N := [1; 2; 4; 8; 0x10; 0x20].
Fixpoint ks256 (temp1 temp3 : reg) (rcs : list N) : option (list reg) :=
  check_for_zeros_KS temp3
    match rcs with
    | [] =>
      let t1 := KEY_256_ASSIST_1 temp1 (aeskeygenassist temp3 0x40) in
      Some [temp1; temp3; t1]
    | rc :: rcs' =>
      let t1 := KEY_256_ASSIST_1 temp1 (aeskeygenassist temp3 rc) in
      check_for_zeros_KS t1
        (let t3 := KEY_256_ASSIST_2 (aeskeygenassist t1 0) temp3 in
         obind (ks256 t1 t3 rcs') (fun ks => Some (temp1 :: temp3 :: ks)))
    end.
Definition aes_256_aesni (key plaintext : bytes) : option bytes :=
  obind (ks256 (firstn 16 key) (skipn 16 key) rcons256) (fun ks => encrypt ks plaintext).

(** aes_128 / aes_192 / aes_256, aes.cpp:492-500, 834-846, 1251-1263.  [Some ct] = returned true.
    (The content of ciphertext_out after "false" is not used by the library and not modelled.) *)
Definition aes_128 (key pt : bytes) : option bytes := aes_128_aesni key pt.
Definition two_blocks (f : bytes -> bytes -> option bytes) (key pt : bytes) : option bytes :=
  let ok1 := f key (firstn 16 pt) in
  let ok2 := f key (skipn 16 pt) in
  match ok1, ok2 with Some c1, Some c2 => Some (c1 ++ c2) | _, _ => None end.
Definition aes_192 (key pt : bytes) : option bytes := two_blocks aes_192_aesni key pt.
Definition aes_256 (key pt : bytes) : option bytes := two_blocks aes_256_aesni key pt.

(** ** Evaluation that records the S-box inputs and inverses.
    The state is (saved_sbox_state.first, saved_sbox_state.second); a failed check leaves what was pushed so far. *)
Definition saved := (bytes * bytes)%type.
Definition sv (A : Type) := (saved * option A)%type.
Definition sret {A} (st : saved) (a : A) : sv A := (st, Some a).
Definition sbind {A B} (x : sv A) (f : saved -> A -> sv B) : sv B :=
  match x with (st, Some a) => f st a | (st, None) => (st, None) end.
Definition push (st : saved) (s : N) : saved := (fst st ++ [s], snd st ++ [inverse s]).
(** check_for_zeros_and_save_KS / _192 / _256, aes.cpp:227-311: stops at the first zero *)
Fixpoint save_bytes (m : reg) (order : list nat) (st : saved) : sv unit :=
  match order with
  | [] => sret st tt
  | i :: order' =>
    let s := extract_epi8 m i in
    if s =? 0 then (st, None) else save_bytes m order' (push st s)
  end.
Definition save_KS (m : reg) := save_bytes m [13; 14; 15; 12]%nat.
Definition save_KS_192 (m : reg) := save_bytes m [5; 6; 7; 4]%nat.
Definition save_KS_256 (m : reg) := save_bytes m [12; 13; 14; 15]%nat.
(** check_for_zeros_and_save, aes.cpp:313-327: the state column by column transposed, buf[j*4+i] *)
Definition tr_idx : list nat := flat_map (fun i => map (fun j => j * 4 + i)%nat (seq 0 4)) (seq 0 4).
Definition save_state (m : reg) (st : saved) : sv unit :=
  if has_zero m then (st, None)
  else sret (fold_left push (map (fun i => nth i m 0) tr_idx) st) tt.

Fixpoint enc_rounds_save (m : reg) (ks : list reg) (st : saved) : sv reg :=
  sbind (save_state m st) (fun st _ =>
    match ks with
    | [] => (st, None)
    | [k] => sret st (aesenclast m k)
    | k :: ks' => enc_rounds_save (aesenc m k) ks' st
    end).
Definition encrypt_save (ks : list reg) (plaintext : reg) (st : saved) : sv reg :=
  match ks with
  | [] => (st, None)
  | k0 :: ks' => enc_rounds_save (xor128 plaintext k0) ks' st
  end.
(** aes_128_save_sbox_state_aesni, aes.cpp:438-490 *)
Fixpoint ks128_save (key : reg) (rcs : list N) (st : saved) : sv (list reg) :=
  match rcs with
  | [] => sret st [key]
  | rc :: rcs' =>
    sbind (save_KS key st) (fun st _ =>
    sbind (ks128_save (aes_128_key_expansion key (aeskeygenassist key rc)) rcs' st)
          (fun st ks => sret st (key :: ks)))
  end.
Definition aes_128_save (key plaintext : bytes) (st : saved) : sv bytes :=
  sbind (ks128_save key rcons128 st) (fun st ks => encrypt_save ks plaintext st).
(** AES_192_Key_Expansion_save / aes_192_save_sbox_state_aesni, aes.cpp:734-832 *)
Fixpoint ks192_save (temp1 temp3 : reg) (rcs : list (N * N)) (st : saved) : sv (list reg) :=
  match rcs with
  | [] => sret st [temp1]
  | (ra, rb) :: rcs' =>
    sbind (save_KS_192 temp3 st) (fun st _ =>
      let '(t1, t3) := KEY_192_ASSIST temp1 (aeskeygenassist temp3 ra) temp3 in
      let k1 := shuffle_pd0 temp3 t1 in
      let k2 := shuffle_pd1 t1 t3 in
      sbind (save_KS_192 t3 st) (fun st _ =>
        let '(t1', t3') := KEY_192_ASSIST t1 (aeskeygenassist t3 rb) t3 in
        sbind (ks192_save t1' t3' rcs' st) (fun st ks => sret st (temp1 :: k1 :: k2 :: ks))))
  end.
Definition blocks_save (ks : list reg) (pt : bytes) (st : saved) : sv bytes :=
  sbind (encrypt_save ks (firstn 16 pt) st) (fun st c1 =>
  sbind (encrypt_save ks (skipn 16 pt) st) (fun st c2 => sret st (c1 ++ c2))).
Definition aes_192_save (key pt : bytes) (st : saved) : sv bytes :=
  let key_tmp := firstn 24 key ++ zeros 8 in
  sbind (ks192_save (firstn 16 key_tmp) (skipn 16 key_tmp) rcons192 st) (fun st ks => blocks_save ks pt st).
(** AES_256_Key_Expansion_save / aes_256_save_sbox_state_aesni, aes.cpp:1148-1249 *)
Fixpoint ks256_save (temp1 temp3 : reg) (rcs : list N) (st : saved) : sv (list reg) :=
  sbind (save_KS temp3 st) (fun st _ =>
    match rcs with
    | [] =>
      let t1 := KEY_256_ASSIST_1 temp1 (aeskeygenassist temp3 0x40) in
      sret st [temp1; temp3; t1]
    | rc :: rcs' =>
      let t1 := KEY_256_ASSIST_1 temp1 (aeskeygenassist temp3 rc) in
      sbind (save_KS_256 t1 st) (fun st _ =>
        let t3 := KEY_256_ASSIST_2 (aeskeygenassist t1 0) temp3 in
        sbind (ks256_save t1 t3 rcs' st) (fun st ks => sret st (temp1 :: temp3 :: ks)))
    end).
Definition aes_256_save (key pt : bytes) (st : saved) : sv bytes :=
  sbind (ks256_save (firstn 16 key) (skipn 16 key) rcons256 st) (fun st ks => blocks_save ks pt st).

(** aes_N_with_sbox_output, aes.cpp:502-517, 847-862, 1264-1280: in the release build the boolean is ignored;
    result = (pairs, what was written to ciphertext_out if everything succeeded) *)
Definition aes_128_with_sbox_output (key pt : bytes) : sv bytes := aes_128_save key pt ([], []).
Definition aes_192_with_sbox_output (key pt : bytes) : sv bytes := aes_192_save key pt ([], []).
Definition aes_256_with_sbox_output (key pt : bytes) : sv bytes := aes_256_save key pt ([], []).

(** ** Evaluation on shares (one party).
    [t] is the span t_shares[party]; the state is (sbox_index, content of the span s_shares[party]). *)
Definition pst := (nat * bytes)%type.
(** write len bytes at an offset *)
Definition write (s : bytes) (off : nat) (d : bytes) : res bytes :=
  if (off + length d <=? length s)%nat then Ok (firstn off s ++ d ++ skipn (off + length d) s)
  else UB OutOfBounds.
(** one byte of the *_key_exp_restore macros: s_shares[party][sbox_index] = m[src]; t = t_shares[party][sbox_index++] *)
Definition restore_byte (t : bytes) (m : reg) (src : nat) (st : pst) : res (N * pst) :=
  let '(sbox_index, s) := st in
  do s' <- write s sbox_index [extract_epi8 m src];
  do tb <- get t sbox_index;
  Ok (affine_lin tb, (S sbox_index, s')).
(** AES_128/192/256_key_exp_restore and restore_2, aes.cpp:89-200: keygend assembled at [dst..dst+3] *)
Definition key_exp_restore (t : bytes) (m : reg) (srcs : list nat) (dst : nat) (affine rc : N) (st : pst)
  : res (reg * pst) :=
  let keygend := zeros 16 in
  do (b0, st) <- restore_byte t m (nth 0 srcs 0%nat) st;
  let keygend := insert_epi8 keygend (N.lxor (N.lxor b0 affine) rc) dst in
  do (b1, st) <- restore_byte t m (nth 1 srcs 0%nat) st;
  let keygend := insert_epi8 keygend (N.lxor b1 affine) (dst + 1) in
  do (b2, st) <- restore_byte t m (nth 2 srcs 0%nat) st;
  let keygend := insert_epi8 keygend (N.lxor b2 affine) (dst + 2) in
  do (b3, st) <- restore_byte t m (nth 3 srcs 0%nat) st;
  let keygend := insert_epi8 keygend (N.lxor b3 affine) (dst + 3) in
  Ok (keygend, st).
(** AES_128_key_exp_restore, aes.cpp:89-119, including the combination with the previous round key *)
Definition AES_128_key_exp_restore (t : bytes) (m : reg) (affine rc : N) (st : pst) : res (reg * pst) :=
  do (keygend, st) <- key_exp_restore t m [13; 14; 15; 12]%nat 12 affine rc st;
  let keygend := shuffle_all keygend 3 in
  let key := xor128 m (slli4 m) in
  let key := xor128 key (slli4 key) in
  let key := xor128 key (slli4 key) in
  Ok (xor128 key keygend, st).
Definition AES_192_key_exp_restore (t : bytes) (m : reg) (affine rc : N) (st : pst) : res (reg * pst) :=
  key_exp_restore t m [5; 6; 7; 4]%nat 4 affine rc st.
Definition AES_256_key_exp_restore (t : bytes) (m : reg) (affine rc : N) (st : pst) : res (reg * pst) :=
  key_exp_restore t m [13; 14; 15; 12]%nat 12 affine rc st.
Definition AES_256_key_exp_restore_2 (t : bytes) (m : reg) (affine : N) (st : pst) : res (reg * pst) :=
  key_exp_restore t m [12; 13; 14; 15]%nat 8 affine 0 st.

(** restore_t_shares, aes.cpp:364-379 *)
Definition s_shuf : list nat := [0;4;8;12;1;5;9;13;2;6;10;14;3;7;11;15]%nat.
Definition t_shuf : list nat := [0;5;10;15;1;6;11;12;2;7;8;13;3;4;9;14]%nat.
Definition restore_t_shares (first : bool) (t : bytes) (m : reg) (st : pst) : res (reg * pst) :=
  let '(sbox_index, s) := st in
  let tmp := shuffle_epi8 m s_shuf in
  do s' <- write s sbox_index tmp;
  do m <- read t sbox_index 16;
  let m := shuffle_epi8 m t_shuf in
  let tmp := xor128 (rotl_epi8 m 1) (rotl_epi8 m 3) in
  let tmp := xor128 tmp (rotl_epi8 tmp 1) in
  let m := xor128 tmp m in
  let m := if first then xor128 m (repeat AFFINE_CONST 16) else m in
  Ok (m, ((sbox_index + 16)%nat, s')).

(** the rounds of aes_N_s_shares for one party and one block, aes.cpp:595-634, 995-1047, 1416-1474;
    [state] is plaintext (first party) or zero, [ks] the key schedule *)
Fixpoint mpc_rounds (first : bool) (t : bytes) (m : reg) (ks : list reg) (st : pst) : res (reg * pst) :=
  do (m, st) <- restore_t_shares first t m st;
  match ks with
  | [] => UB OutOfBounds
  | [k] => Ok (xor128 m k, st)
  | k :: ks' => mpc_rounds first t (xor128 (aesimc (aesimc (aesimc m))) k) ks' st
  end.
Definition mpc_block (first : bool) (t : bytes) (pt : bytes) (ks : list reg) (s : bytes) (sbox_index : nat)
  : res (reg * bytes) :=
  match ks with
  | [] => UB OutOfBounds
  | k0 :: ks' =>
    let state := if first then pt else zeros 16 in
    do (c, st) <- mpc_rounds first t (xor128 state k0) ks' (sbox_index, s);
    Ok (c, snd st)
  end.

Definition aff (first : bool) : N := if first then AFFINE_CONST else 0.
Definition rc_of (first : bool) (rc : N) : N := if first then rc else 0.

(** key schedule of aes_128_s_shares, aes.cpp:533-594 *)
Fixpoint mks128 (first : bool) (t : bytes) (key : reg) (rcs : list N) (st : pst) : res (list reg * pst) :=
  match rcs with
  | [] => Ok ([key], st)
  | rc :: rcs' =>
    do (key', st) <- AES_128_key_exp_restore t key (aff first) (rc_of first rc) st;
    do (ks, st) <- mks128 first t key' rcs' st;
    Ok (key :: ks, st)
  end.
(** one party of aes_128_s_shares, aes.cpp:519-634; [slen] is the size of its s_shares span *)
Definition party_128 (first : bool) (key t pt : bytes) (slen : nat) : res (bytes * bytes) :=
  do k <- read key 0 16;
  do (ks, st) <- mks128 first t k rcons128 (0%nat, zeros slen);
  do p <- read pt 0 16;
  mpc_block first t p ks (snd st) 40.

(** key schedule of aes_192_s_shares, aes.cpp:877-994 *)
Fixpoint mks192 (first : bool) (t : bytes) (temp1 temp3 : reg) (rcs : list (N * N)) (st : pst)
  : res (list reg * pst) :=
  match rcs with
  | [] => Ok ([temp1], st)
  | (ra, rb) :: rcs' =>
    do (temp2, st) <- AES_192_key_exp_restore t temp3 (aff first) (rc_of first ra) st;
    let '(t1, t3) := KEY_192_ASSIST temp1 temp2 temp3 in
    let k1 := shuffle_pd0 temp3 t1 in
    let k2 := shuffle_pd1 t1 t3 in
    do (temp2, st) <- AES_192_key_exp_restore t t3 (aff first) (rc_of first rb) st;
    let '(t1', t3') := KEY_192_ASSIST t1 temp2 t3 in
    do (ks, st) <- mks192 first t t1' t3' rcs' st;
    Ok (temp1 :: k1 :: k2 :: ks, st)
  end.
(** one party of aes_192_s_shares, aes.cpp:864-1047 *)
Definition party_192 (first : bool) (key t pt : bytes) (slen : nat) : res (bytes * bytes) :=
  do k <- read key 0 24;
  let key_tmp := k ++ zeros 8 in
  do (ks, st) <- mks192 first t (firstn 16 key_tmp) (skipn 16 key_tmp) rcons192 (0%nat, zeros slen);
  do p0 <- read pt 0 16;
  do (c0, s) <- mpc_block first t p0 ks (snd st) 32;
  do p1 <- read pt 16 16;
  do (c1, s) <- mpc_block first t p1 ks s (32 + 192);
  Ok (c0 ++ c1, s).

(** key schedule of aes_256_s_shares, aes.cpp:1295-1415 *)
Fixpoint mks256 (first : bool) (t : bytes) (temp1 temp3 : reg) (rcs : list N) (st : pst) : res (list reg * pst) :=
  match rcs with
  | [] =>
    do (temp2, st) <- AES_256_key_exp_restore t temp3 (aff first) (rc_of first 0x40) st;
    Ok ([temp1; temp3; KEY_256_ASSIST_1 temp1 temp2], st)
  | rc :: rcs' =>
    do (temp2, st) <- AES_256_key_exp_restore t temp3 (aff first) (rc_of first rc) st;
    let t1 := KEY_256_ASSIST_1 temp1 temp2 in
    do (temp2, st) <- AES_256_key_exp_restore_2 t t1 (aff first) st;
    let t3 := KEY_256_ASSIST_2 temp2 temp3 in
    do (ks, st) <- mks256 first t t1 t3 rcs' st;
    Ok (temp1 :: temp3 :: ks, st)
  end.
(** one party of aes_256_s_shares, aes.cpp:1282-1474 *)
Definition party_256 (first : bool) (key t pt : bytes) (slen : nat) : res (bytes * bytes) :=
  do k <- read key 0 32;
  do (ks, st) <- mks256 first t (firstn 16 k) (skipn 16 k) rcons256 (0%nat, zeros slen);
  do p0 <- read pt 0 16;
  do (c0, s) <- mpc_block first t p0 ks (snd st) 52;
  do p1 <- read pt 16 16;
  do (c1, s) <- mpc_block first t p1 ks s (52 + 224);
  Ok (c0 ++ c1, s).

(** aes_N_s_shares: party 0 is the first; parties do not interact.  The spans written are zero-initialised
    slots of RepByteContainers of the right size (banquet.cpp:373-382, types.h).
    Result: (ciphertext share, S-box input share) per party. *)
Definition s_shares (party : bool -> bytes -> bytes -> bytes -> nat -> res (bytes * bytes))
  (keys ts : list bytes) (pt : bytes) (slen : nat) : res (list (bytes * bytes)) :=
  mapM (fun p => do k <- get keys p; do t <- get ts p; party (p =? 0)%nat k t pt slen) (seq 0 (length keys)).
Definition aes_128_s_shares := s_shares party_128.
Definition aes_192_s_shares := s_shares party_192.
Definition aes_256_s_shares := s_shares party_256.
