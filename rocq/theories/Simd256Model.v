(** Model of keccak/avx2/KeccakP-1600-times4-SIMD256.c: the four-way functions that the four-way sponge uses in the default build
    (USE_AVX2 on; KeccakP1600times4_fullUnrolling and KeccakP1600times4_useAVX2 from SIMD256-config.h:6-7).
    A V256 holds four 64-bit words; the intrinsics are modelled after Intel's description of them.  The 800 bytes of the four
    states are little-endian words: lane j of state i is word 4*j+i.  unsigned int arguments are given as nat or N below 2^32.
    The alignment that _mm256_load_si256 and _mm256_store_si256 require is modelled (see permute_all); that of the uint64_t
    accesses to the data, and the aliasing rules of C, are not.  The functions on lanes of all states, Overwrite*, ExtractAndAdd*
    and the permutations with 12, 6 and 4 rounds, which banquet does not use, are in FourModel, the fast loops in Fast4Model; Kravatte is not modelled. *)
From Coq Require Import Arith NArith List Bool.
From Verif Require Import Prelude SpongeModel SnpMem SnpSponge X86Model.
Import ListNotations.

(** ** KeccakP-1600-times4-SIMD256.c:41-70: types and intrinsics *)
Definition V256 : Set := v4.
(** _mm256_andnot_si256(a, b): not a and b; line 51 *)
Definition ANDnu256 (a b : V256) : V256 := vmap2 w_andn a b.
(** _mm256_xor_si256; lines 69-70 *)
Definition XOR256 (a b : V256) : V256 := vmap2 w_xor a b.
(** _mm256_set1_epi64x; line 53 *)
Definition CONST256_64 (a : N) : V256 := V4 a a a a.
(** _mm256_or_si256(_mm256_slli_epi64(a, o), _mm256_srli_epi64(a, 64 - o)); lines 58-59 *)
Definition slli_epi64 (a : V256) (o : N) : V256 := V4 (w_shl (w0 a) o) (w_shl (w1 a) o) (w_shl (w2 a) o) (w_shl (w3 a) o).
Definition srli_epi64 (a : V256) (o : N) : V256 := V4 (w_shr (w0 a) o) (w_shr (w1 a) o) (w_shr (w2 a) o) (w_shr (w3 a) o).
Definition ROL64in256 (a : V256) (o : N) : V256 := vmap2 w_or (slli_epi64 a o) (srli_epi64 a (64 - o)).
(** _mm256_shuffle_epi8(a, b): in each half of 16 bytes, byte k of the result is byte (b_k mod 16) of that half of a, or 0 if
    the top bit of b_k is set *)
Definition shuffle_byte (a : bytes) (b : N) : N := if N.testbit b 7 then 0%N else nth (N.to_nat (b mod 16)) a 0%N.
Definition shuffle_half (a0 a1 : N) (b : N) : N := le_word (map (shuffle_byte (le_bytes 8 a0 ++ le_bytes 8 a1)) (le_bytes 8 b)).
Definition shuffle_epi8 (a b : V256) : V256 :=
  V4 (shuffle_half (w0 a) (w1 a) (w0 b)) (shuffle_half (w0 a) (w1 a) (w1 b)) (shuffle_half (w2 a) (w3 a) (w2 b)) (shuffle_half (w2 a) (w3 a) (w3 b)).
(** rho8, rho56; lines 62-65 *)
Definition rho8 : V256 := V4 0x0605040302010007 0x0E0D0C0B0A09080F 0x1615141312111017 0x1E1D1C1B1A19181F.
Definition rho56 : V256 := V4 0x0007060504030201 0x080F0E0D0C0B0A09 0x1017161514131211 0x181F1E1D1C1B1A19.
(** lines 60-61; the alignment of the tables is checked in permute_all *)
Definition ROL64in256_8 (a : V256) : V256 := shuffle_epi8 a rho8.
Definition ROL64in256_56 (a : V256) : V256 := shuffle_epi8 a rho56.
(** LOAD256(m[j]), STORE256(m[j], v) with m an array of V256; lines 54, 66 *)
Definition LOAD256 (m : bytes) (j : nat) : res V256 :=
  do x0 <- load64 m (4 * j); do x1 <- load64 m (4 * j + 1); do x2 <- load64 m (4 * j + 2); do x3 <- load64 m (4 * j + 3); Ok (V4 x0 x1 x2 x3).
Definition STORE256 (m : bytes) (j : nat) (v : V256) : res bytes :=
  do m <- store64 m (4 * j) (w0 v); do m <- store64 m (4 * j + 1) (w1 v); do m <- store64 m (4 * j + 2) (w2 v); store64 m (4 * j + 3) (w3 v).

(** ** the permutation *)
(** KeccakF1600RoundConstants, KeccakP-1600-times4-SIMD256.c:750-759 *)
Definition KeccakF1600RoundConstants : list N := [
  0x0000000000000001; 0x0000000000008082; 0x800000000000808a;
  0x8000000080008000; 0x000000000000808b; 0x0000000080000001;
  0x8000000080008081; 0x8000000000008009; 0x000000000000008a;
  0x0000000000000088; 0x0000000080008009; 0x000000008000000a;
  0x000000008000808b; 0x800000000000008b; 0x8000000000008089;
  0x8000000000008003; 0x8000000000008002; 0x8000000000000080;
  0x000000000000800a; 0x800000008000000a; 0x8000000080008081;
  0x8000000000008080; 0x0000000080000001; 0x8000000080008008]%N.

(** the variables Xba, ..., Xsu and Ca, ..., Cu, KeccakP-1600-times4-SIMD256.c:508-526 *)
Record vlanes : Type := mkV { v_ba : V256; v_be : V256; v_bi : V256; v_bo : V256; v_bu : V256; v_ga : V256; v_ge : V256; v_gi : V256; v_go : V256; v_gu : V256; v_ka : V256; v_ke : V256; v_ki : V256; v_ko : V256; v_ku : V256; v_ma : V256; v_me : V256; v_mi : V256; v_mo : V256; v_mu : V256; v_sa : V256; v_se : V256; v_si : V256; v_so : V256; v_su : V256 }.
Record vcols : Type := mkVC { v_ca : V256; v_ce : V256; v_ci : V256; v_co : V256; v_cu : V256 }.
(** prepareTheta, KeccakP-1600-times4-SIMD256.c:528-533 *)
Definition prepareTheta (A : vlanes) : vcols :=
  let '(mkV Aba Abe Abi Abo Abu Aga Age Agi Ago Agu Aka Ake Aki Ako Aku Ama Ame Ami Amo Amu Asa Ase Asi Aso Asu) := A in
  let Ca := XOR256 Aba (XOR256 Aga (XOR256 Aka (XOR256 Ama Asa))) in
  let Ce := XOR256 Abe (XOR256 Age (XOR256 Ake (XOR256 Ame Ase))) in
  let Ci := XOR256 Abi (XOR256 Agi (XOR256 Aki (XOR256 Ami Asi))) in
  let Co := XOR256 Abo (XOR256 Ago (XOR256 Ako (XOR256 Amo Aso))) in
  let Cu := XOR256 Abu (XOR256 Agu (XOR256 Aku (XOR256 Amu Asu))) in
  mkVC Ca Ce Ci Co Cu.
(** thetaRhoPiChiIotaPrepareTheta(i, A, E), KeccakP-1600-times4-SIMD256.c:537-653 *)
Definition thetaRhoPiChiIotaPrepareTheta (i : nat) (A : vlanes) (C : vcols) : vlanes * vcols :=
  let '(mkV Aba Abe Abi Abo Abu Aga Age Agi Ago Agu Aka Ake Aki Ako Aku Ama Ame Ami Amo Amu Asa Ase Asi Aso Asu) := A in
  let '(mkVC Ca Ce Ci Co Cu) := C in
  let Ce1 := ROL64in256 Ce 1 in
  let Da := XOR256 Cu Ce1 in
  let Ci1 := ROL64in256 Ci 1 in
  let De := XOR256 Ca Ci1 in
  let Co1 := ROL64in256 Co 1 in
  let Di := XOR256 Ce Co1 in
  let Cu1 := ROL64in256 Cu 1 in
  let Do := XOR256 Ci Cu1 in
  let Ca1 := ROL64in256 Ca 1 in
  let Du := XOR256 Co Ca1 in
  let Aba := XOR256 Aba Da in
  let Bba := Aba in
  let Age := XOR256 Age De in
  let Bbe := ROL64in256 Age 44 in
  let Aki := XOR256 Aki Di in
  let Bbi := ROL64in256 Aki 43 in
  let Eba := XOR256 Bba (ANDnu256 Bbe Bbi) in
  let Eba := XOR256 Eba (CONST256_64 (nth i KeccakF1600RoundConstants 0%N)) in
  let Ca := Eba in
  let Amo := XOR256 Amo Do in
  let Bbo := ROL64in256 Amo 21 in
  let Ebe := XOR256 Bbe (ANDnu256 Bbi Bbo) in
  let Ce := Ebe in
  let Asu := XOR256 Asu Du in
  let Bbu := ROL64in256 Asu 14 in
  let Ebi := XOR256 Bbi (ANDnu256 Bbo Bbu) in
  let Ci := Ebi in
  let Ebo := XOR256 Bbo (ANDnu256 Bbu Bba) in
  let Co := Ebo in
  let Ebu := XOR256 Bbu (ANDnu256 Bba Bbe) in
  let Cu := Ebu in
  let Abo := XOR256 Abo Do in
  let Bga := ROL64in256 Abo 28 in
  let Agu := XOR256 Agu Du in
  let Bge := ROL64in256 Agu 20 in
  let Aka := XOR256 Aka Da in
  let Bgi := ROL64in256 Aka 3 in
  let Ega := XOR256 Bga (ANDnu256 Bge Bgi) in
  let Ca := XOR256 Ca Ega in
  let Ame := XOR256 Ame De in
  let Bgo := ROL64in256 Ame 45 in
  let Ege := XOR256 Bge (ANDnu256 Bgi Bgo) in
  let Ce := XOR256 Ce Ege in
  let Asi := XOR256 Asi Di in
  let Bgu := ROL64in256 Asi 61 in
  let Egi := XOR256 Bgi (ANDnu256 Bgo Bgu) in
  let Ci := XOR256 Ci Egi in
  let Ego := XOR256 Bgo (ANDnu256 Bgu Bga) in
  let Co := XOR256 Co Ego in
  let Egu := XOR256 Bgu (ANDnu256 Bga Bge) in
  let Cu := XOR256 Cu Egu in
  let Abe := XOR256 Abe De in
  let Bka := ROL64in256 Abe 1 in
  let Agi := XOR256 Agi Di in
  let Bke := ROL64in256 Agi 6 in
  let Ako := XOR256 Ako Do in
  let Bki := ROL64in256 Ako 25 in
  let Eka := XOR256 Bka (ANDnu256 Bke Bki) in
  let Ca := XOR256 Ca Eka in
  let Amu := XOR256 Amu Du in
  let Bko := ROL64in256_8 Amu in
  let Eke := XOR256 Bke (ANDnu256 Bki Bko) in
  let Ce := XOR256 Ce Eke in
  let Asa := XOR256 Asa Da in
  let Bku := ROL64in256 Asa 18 in
  let Eki := XOR256 Bki (ANDnu256 Bko Bku) in
  let Ci := XOR256 Ci Eki in
  let Eko := XOR256 Bko (ANDnu256 Bku Bka) in
  let Co := XOR256 Co Eko in
  let Eku := XOR256 Bku (ANDnu256 Bka Bke) in
  let Cu := XOR256 Cu Eku in
  let Abu := XOR256 Abu Du in
  let Bma := ROL64in256 Abu 27 in
  let Aga := XOR256 Aga Da in
  let Bme := ROL64in256 Aga 36 in
  let Ake := XOR256 Ake De in
  let Bmi := ROL64in256 Ake 10 in
  let Ema := XOR256 Bma (ANDnu256 Bme Bmi) in
  let Ca := XOR256 Ca Ema in
  let Ami := XOR256 Ami Di in
  let Bmo := ROL64in256 Ami 15 in
  let Eme := XOR256 Bme (ANDnu256 Bmi Bmo) in
  let Ce := XOR256 Ce Eme in
  let Aso := XOR256 Aso Do in
  let Bmu := ROL64in256_56 Aso in
  let Emi := XOR256 Bmi (ANDnu256 Bmo Bmu) in
  let Ci := XOR256 Ci Emi in
  let Emo := XOR256 Bmo (ANDnu256 Bmu Bma) in
  let Co := XOR256 Co Emo in
  let Emu := XOR256 Bmu (ANDnu256 Bma Bme) in
  let Cu := XOR256 Cu Emu in
  let Abi := XOR256 Abi Di in
  let Bsa := ROL64in256 Abi 62 in
  let Ago := XOR256 Ago Do in
  let Bse := ROL64in256 Ago 55 in
  let Aku := XOR256 Aku Du in
  let Bsi := ROL64in256 Aku 39 in
  let Esa := XOR256 Bsa (ANDnu256 Bse Bsi) in
  let Ca := XOR256 Ca Esa in
  let Ama := XOR256 Ama Da in
  let Bso := ROL64in256 Ama 41 in
  let Ese := XOR256 Bse (ANDnu256 Bsi Bso) in
  let Ce := XOR256 Ce Ese in
  let Ase := XOR256 Ase De in
  let Bsu := ROL64in256 Ase 2 in
  let Esi := XOR256 Bsi (ANDnu256 Bso Bsu) in
  let Ci := XOR256 Ci Esi in
  let Eso := XOR256 Bso (ANDnu256 Bsu Bsa) in
  let Co := XOR256 Co Eso in
  let Esu := XOR256 Bsu (ANDnu256 Bsa Bse) in
  let Cu := XOR256 Cu Esu in
  (mkV Eba Ebe Ebi Ebo Ebu Ega Ege Egi Ego Egu Eka Eke Eki Eko Eku Ema Eme Emi Emo Emu Esa Ese Esi Eso Esu, mkVC Ca Ce Ci Co Cu).
(** thetaRhoPiChiIota(i, A, E), KeccakP-1600-times4-SIMD256.c:657-748 *)
Definition thetaRhoPiChiIota (i : nat) (A : vlanes) (C : vcols) : vlanes :=
  let '(mkV Aba Abe Abi Abo Abu Aga Age Agi Ago Agu Aka Ake Aki Ako Aku Ama Ame Ami Amo Amu Asa Ase Asi Aso Asu) := A in
  let '(mkVC Ca Ce Ci Co Cu) := C in
  let Ce1 := ROL64in256 Ce 1 in
  let Da := XOR256 Cu Ce1 in
  let Ci1 := ROL64in256 Ci 1 in
  let De := XOR256 Ca Ci1 in
  let Co1 := ROL64in256 Co 1 in
  let Di := XOR256 Ce Co1 in
  let Cu1 := ROL64in256 Cu 1 in
  let Do := XOR256 Ci Cu1 in
  let Ca1 := ROL64in256 Ca 1 in
  let Du := XOR256 Co Ca1 in
  let Aba := XOR256 Aba Da in
  let Bba := Aba in
  let Age := XOR256 Age De in
  let Bbe := ROL64in256 Age 44 in
  let Aki := XOR256 Aki Di in
  let Bbi := ROL64in256 Aki 43 in
  let Eba := XOR256 Bba (ANDnu256 Bbe Bbi) in
  let Eba := XOR256 Eba (CONST256_64 (nth i KeccakF1600RoundConstants 0%N)) in
  let Amo := XOR256 Amo Do in
  let Bbo := ROL64in256 Amo 21 in
  let Ebe := XOR256 Bbe (ANDnu256 Bbi Bbo) in
  let Asu := XOR256 Asu Du in
  let Bbu := ROL64in256 Asu 14 in
  let Ebi := XOR256 Bbi (ANDnu256 Bbo Bbu) in
  let Ebo := XOR256 Bbo (ANDnu256 Bbu Bba) in
  let Ebu := XOR256 Bbu (ANDnu256 Bba Bbe) in
  let Abo := XOR256 Abo Do in
  let Bga := ROL64in256 Abo 28 in
  let Agu := XOR256 Agu Du in
  let Bge := ROL64in256 Agu 20 in
  let Aka := XOR256 Aka Da in
  let Bgi := ROL64in256 Aka 3 in
  let Ega := XOR256 Bga (ANDnu256 Bge Bgi) in
  let Ame := XOR256 Ame De in
  let Bgo := ROL64in256 Ame 45 in
  let Ege := XOR256 Bge (ANDnu256 Bgi Bgo) in
  let Asi := XOR256 Asi Di in
  let Bgu := ROL64in256 Asi 61 in
  let Egi := XOR256 Bgi (ANDnu256 Bgo Bgu) in
  let Ego := XOR256 Bgo (ANDnu256 Bgu Bga) in
  let Egu := XOR256 Bgu (ANDnu256 Bga Bge) in
  let Abe := XOR256 Abe De in
  let Bka := ROL64in256 Abe 1 in
  let Agi := XOR256 Agi Di in
  let Bke := ROL64in256 Agi 6 in
  let Ako := XOR256 Ako Do in
  let Bki := ROL64in256 Ako 25 in
  let Eka := XOR256 Bka (ANDnu256 Bke Bki) in
  let Amu := XOR256 Amu Du in
  let Bko := ROL64in256_8 Amu in
  let Eke := XOR256 Bke (ANDnu256 Bki Bko) in
  let Asa := XOR256 Asa Da in
  let Bku := ROL64in256 Asa 18 in
  let Eki := XOR256 Bki (ANDnu256 Bko Bku) in
  let Eko := XOR256 Bko (ANDnu256 Bku Bka) in
  let Eku := XOR256 Bku (ANDnu256 Bka Bke) in
  let Abu := XOR256 Abu Du in
  let Bma := ROL64in256 Abu 27 in
  let Aga := XOR256 Aga Da in
  let Bme := ROL64in256 Aga 36 in
  let Ake := XOR256 Ake De in
  let Bmi := ROL64in256 Ake 10 in
  let Ema := XOR256 Bma (ANDnu256 Bme Bmi) in
  let Ami := XOR256 Ami Di in
  let Bmo := ROL64in256 Ami 15 in
  let Eme := XOR256 Bme (ANDnu256 Bmi Bmo) in
  let Aso := XOR256 Aso Do in
  let Bmu := ROL64in256_56 Aso in
  let Emi := XOR256 Bmi (ANDnu256 Bmo Bmu) in
  let Emo := XOR256 Bmo (ANDnu256 Bmu Bma) in
  let Emu := XOR256 Bmu (ANDnu256 Bma Bme) in
  let Abi := XOR256 Abi Di in
  let Bsa := ROL64in256 Abi 62 in
  let Ago := XOR256 Ago Do in
  let Bse := ROL64in256 Ago 55 in
  let Aku := XOR256 Aku Du in
  let Bsi := ROL64in256 Aku 39 in
  let Esa := XOR256 Bsa (ANDnu256 Bse Bsi) in
  let Ama := XOR256 Ama Da in
  let Bso := ROL64in256 Ama 41 in
  let Ese := XOR256 Bse (ANDnu256 Bsi Bso) in
  let Ase := XOR256 Ase De in
  let Bsu := ROL64in256 Ase 2 in
  let Esi := XOR256 Bsi (ANDnu256 Bso Bsu) in
  let Eso := XOR256 Bso (ANDnu256 Bsu Bsa) in
  let Esu := XOR256 Bsu (ANDnu256 Bsa Bse) in
  mkV Eba Ebe Ebi Ebo Ebu Ega Ege Egi Ego Egu Eka Eke Eki Eko Eku Ema Eme Emi Emo Emu Esa Ese Esi Eso Esu.
(** rounds24, avx2/KeccakP-1600-unrolling.macros:18-44 *)
Definition rounds24 (A : vlanes) : vlanes :=
  let C := prepareTheta A in
  let (E, C) := thetaRhoPiChiIotaPrepareTheta 0 A C in
  let (A, C) := thetaRhoPiChiIotaPrepareTheta 1 E C in
  let (E, C) := thetaRhoPiChiIotaPrepareTheta 2 A C in
  let (A, C) := thetaRhoPiChiIotaPrepareTheta 3 E C in
  let (E, C) := thetaRhoPiChiIotaPrepareTheta 4 A C in
  let (A, C) := thetaRhoPiChiIotaPrepareTheta 5 E C in
  let (E, C) := thetaRhoPiChiIotaPrepareTheta 6 A C in
  let (A, C) := thetaRhoPiChiIotaPrepareTheta 7 E C in
  let (E, C) := thetaRhoPiChiIotaPrepareTheta 8 A C in
  let (A, C) := thetaRhoPiChiIotaPrepareTheta 9 E C in
  let (E, C) := thetaRhoPiChiIotaPrepareTheta 10 A C in
  let (A, C) := thetaRhoPiChiIotaPrepareTheta 11 E C in
  let (E, C) := thetaRhoPiChiIotaPrepareTheta 12 A C in
  let (A, C) := thetaRhoPiChiIotaPrepareTheta 13 E C in
  let (E, C) := thetaRhoPiChiIotaPrepareTheta 14 A C in
  let (A, C) := thetaRhoPiChiIotaPrepareTheta 15 E C in
  let (E, C) := thetaRhoPiChiIotaPrepareTheta 16 A C in
  let (A, C) := thetaRhoPiChiIotaPrepareTheta 17 E C in
  let (E, C) := thetaRhoPiChiIotaPrepareTheta 18 A C in
  let (A, C) := thetaRhoPiChiIotaPrepareTheta 19 E C in
  let (E, C) := thetaRhoPiChiIotaPrepareTheta 20 A C in
  let (A, C) := thetaRhoPiChiIotaPrepareTheta 21 E C in
  let (E, C) := thetaRhoPiChiIotaPrepareTheta 22 A C in
  thetaRhoPiChiIota 23 E C.
(** copyFromState, KeccakP-1600-times4-SIMD256.c:761-786 *)
Definition copyFromState (m : bytes) : res vlanes :=
  do Xba <- LOAD256 m 0;
  do Xbe <- LOAD256 m 1;
  do Xbi <- LOAD256 m 2;
  do Xbo <- LOAD256 m 3;
  do Xbu <- LOAD256 m 4;
  do Xga <- LOAD256 m 5;
  do Xge <- LOAD256 m 6;
  do Xgi <- LOAD256 m 7;
  do Xgo <- LOAD256 m 8;
  do Xgu <- LOAD256 m 9;
  do Xka <- LOAD256 m 10;
  do Xke <- LOAD256 m 11;
  do Xki <- LOAD256 m 12;
  do Xko <- LOAD256 m 13;
  do Xku <- LOAD256 m 14;
  do Xma <- LOAD256 m 15;
  do Xme <- LOAD256 m 16;
  do Xmi <- LOAD256 m 17;
  do Xmo <- LOAD256 m 18;
  do Xmu <- LOAD256 m 19;
  do Xsa <- LOAD256 m 20;
  do Xse <- LOAD256 m 21;
  do Xsi <- LOAD256 m 22;
  do Xso <- LOAD256 m 23;
  do Xsu <- LOAD256 m 24;
  Ok (mkV Xba Xbe Xbi Xbo Xbu Xga Xge Xgi Xgo Xgu Xka Xke Xki Xko Xku Xma Xme Xmi Xmo Xmu Xsa Xse Xsi Xso Xsu).
(** copyToState, KeccakP-1600-times4-SIMD256.c:788-813 *)
Definition copyToState (m : bytes) (X : vlanes) : res bytes :=
  do m <- STORE256 m 0 (v_ba X);
  do m <- STORE256 m 1 (v_be X);
  do m <- STORE256 m 2 (v_bi X);
  do m <- STORE256 m 3 (v_bo X);
  do m <- STORE256 m 4 (v_bu X);
  do m <- STORE256 m 5 (v_ga X);
  do m <- STORE256 m 6 (v_ge X);
  do m <- STORE256 m 7 (v_gi X);
  do m <- STORE256 m 8 (v_go X);
  do m <- STORE256 m 9 (v_gu X);
  do m <- STORE256 m 10 (v_ka X);
  do m <- STORE256 m 11 (v_ke X);
  do m <- STORE256 m 12 (v_ki X);
  do m <- STORE256 m 13 (v_ko X);
  do m <- STORE256 m 14 (v_ku X);
  do m <- STORE256 m 15 (v_ma X);
  do m <- STORE256 m 16 (v_me X);
  do m <- STORE256 m 17 (v_mi X);
  do m <- STORE256 m 18 (v_mo X);
  do m <- STORE256 m 19 (v_mu X);
  do m <- STORE256 m 20 (v_sa X);
  do m <- STORE256 m 21 (v_se X);
  do m <- STORE256 m 22 (v_si X);
  do m <- STORE256 m 23 (v_so X);
  STORE256 m 24 (v_su X).

(** Where the linker and the caller put the three objects accessed with aligned loads and stores. *)
Record place : Set := mkPlace { at_states : N; at_rho8 : N; at_rho56 : N }.
Definition aligned32 (a : N) : bool := (a mod 32 =? 0)%N.
(** KeccakP1600times4_PermuteAll_24rounds, KeccakP-1600-times4-SIMD256.c:849-858.  An aligned access to an address that is not
    a multiple of 32 faults; each of the three objects is accessed in every call, so this is checked once. *)
Definition permute_all (P : place) (m : bytes) : res bytes :=
  if aligned32 (at_states P) && aligned32 (at_rho8 P) && aligned32 (at_rho56 P)
  then do A <- copyFromState m; copyToState m (rounds24 A)
  else UB OutOfBounds.

(** ** bytes of one state *)
(** laneIndex, KeccakP-1600-times4-SIMD256.c:47-48 *)
Definition lane_index (instance lanePosition : nat) : nat := lanePosition * 4 + instance.
(** KeccakP1600times4_InitializeAll, KeccakP-1600-times4-SIMD256.c:99-102 *)
Definition init_all (m : bytes) : res bytes := if 800 <=? length m then Ok (repeat 0%N 800 ++ skipn 800 m) else UB OutOfBounds.
(** KeccakP1600times4_AddByte, KeccakP-1600-times4-SnP.h:35-36 *)
Definition add_byte1 (m : bytes) (instance : nat) (byte : N) (offset : nat) : res bytes :=
  xor8 m (instance * 8 + offset / 8 * 4 * 8 + offset mod 8) byte.
(** while (sizeLeft >= 8) of AddBytes, KeccakP-1600-times4-SIMD256.c:126-132; the data is curData *)
Fixpoint add_whole (fuel : nat) (m : bytes) (instance : nat) (data : bytes) (sizeLeft lanePosition : nat) : res (bytes * bytes * nat * nat) :=
  match fuel with
  | O => OutOfFuel
  | S fuel' =>
    if 8 <=? sizeLeft
    then
      do lane <- load64 data 0;
      do m <- xor64 m (lane_index instance lanePosition) lane;
      add_whole fuel' m instance (skipn 8 data) (sizeLeft - 8) (lanePosition + 1)
    else Ok (m, data, sizeLeft, lanePosition)
  end.
(** KeccakP1600times4_AddBytes, KeccakP-1600-times4-SIMD256.c:104-139.  memcpy into byte offsetInLane of a lane that is 0
    makes the word shifted by 8 * offsetInLane bits. *)
Definition add_bytes1 (m : bytes) (instance : nat) (data : bytes) (offset : nat) (len : N) : res bytes :=
  let sizeLeft := N.to_nat len in
  let lanePosition := offset / 8 in
  let offsetInLane := offset mod 8 in
  do (m, curData, sizeLeft, lanePosition) <-
    (if (0 <? sizeLeft) && negb (offsetInLane =? 0)
     then
       let bytesInLane := 8 - offsetInLane in
       let bytesInLane := if sizeLeft <? bytesInLane then sizeLeft else bytesInLane in
       do part <- load_part data bytesInLane;
       do lane <- shl64 part (offsetInLane * 8);
       do m <- xor64 m (lane_index instance lanePosition) lane;
       Ok (m, skipn bytesInLane data, sizeLeft - bytesInLane, lanePosition + 1)
     else Ok (m, data, sizeLeft, lanePosition));
  do (m, curData, sizeLeft, lanePosition) <- add_whole (S sizeLeft) m instance curData sizeLeft lanePosition;
  if 0 <? sizeLeft
  then do lane <- load_part curData sizeLeft; xor64 m (lane_index instance lanePosition) lane
  else Ok m.
(** while (sizeLeft >= 8) of ExtractBytes, KeccakP-1600-times4-SIMD256.c:326-332; the result is what is written to data *)
Fixpoint extract_whole (fuel : nat) (m : bytes) (instance : nat) (sizeLeft lanePosition : nat) : res (bytes * nat * nat) :=
  match fuel with
  | O => OutOfFuel
  | S fuel' =>
    if 8 <=? sizeLeft
    then
      do lane <- load64 m (lane_index instance lanePosition);
      do (o, sizeLeft, lanePosition) <- extract_whole fuel' m instance (sizeLeft - 8) (lanePosition + 1);
      Ok (le_bytes 8 lane ++ o, sizeLeft, lanePosition)
    else Ok ([], sizeLeft, lanePosition)
  end.
(** KeccakP1600times4_ExtractBytes, KeccakP-1600-times4-SIMD256.c:301-338 *)
Definition extract_bytes1 (m : bytes) (instance : nat) (offset : nat) (len : N) : res bytes :=
  let sizeLeft := N.to_nat len in
  let lanePosition := offset / 8 in
  let offsetInLane := offset mod 8 in
  do (o1, sizeLeft, lanePosition) <-
    (if (0 <? sizeLeft) && negb (offsetInLane =? 0)
     then
       let bytesInLane := 8 - offsetInLane in
       let bytesInLane := if sizeLeft <? bytesInLane then sizeLeft else bytesInLane in
       do o <- read m (8 * lane_index instance lanePosition + offsetInLane) bytesInLane;
       Ok (o, sizeLeft - bytesInLane, lanePosition + 1)
     else Ok ([], sizeLeft, lanePosition));
  do (o2, sizeLeft, lanePosition) <- extract_whole (S sizeLeft) m instance sizeLeft lanePosition;
  do o3 <- (if 0 <? sizeLeft then read m (8 * lane_index instance lanePosition) sizeLeft else Ok []);
  Ok (o1 ++ o2 ++ o3).
(** the functions the macro PREFIX of KeccakSpongetimes4.inc stands for *)
Definition simd256 (P : place) : plsnp := mkPlsnp init_all add_byte1 add_bytes1 extract_bytes1 (permute_all P).
