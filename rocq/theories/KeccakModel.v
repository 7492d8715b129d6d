(** Model of keccak/opt64: the permutation KeccakP1600_Permute_24rounds (KeccakP-1600-64.macros, KeccakP-1600-unrolling.macros
    with FullUnrolling, KeccakP-1600-opt64-config.h), without KeccakP1600_useLaneComplementing, little-endian byte order.
    (The functions that add bytes to and extract bytes from a state are modelled in Opt64Model.)
    The state is 200 bytes of memory; lane i, state[i] as an array of uint64_t, is the little-endian word at 8*i.  Alignment and the aliasing
    rules of C are not modelled.  This code is compiled when USE_AVX2 is off.
    In a round macro the variables A##xy are modified and E##xy are set; the next round swaps the roles and sets all of
    A##xy before reading them.  So a round is a function from lanes to lanes. *)
From Coq Require Import Arith NArith List Bool.
From Verif Require Import Prelude SpongeModel.
Import ListNotations.

(** ROL64, KeccakP-1600-opt64.c:49-50 *)
Definition rol64 (a : N) (offset : nat) : N := N.lxor (N.shiftl a (N.of_nat offset) mod 2 ^ 64) (N.shiftr a (N.of_nat (64 - offset))).
(** ~ on uint64_t *)
Definition not64 (a : N) : N := N.lnot a 64.

(** KeccakF1600RoundConstants, KeccakP-1600-opt64.c:62-70 *)
Definition round_constants : list N := [
  0x0000000000000001; 0x0000000000008082; 0x800000000000808a;
  0x8000000080008000; 0x000000000000808b; 0x0000000080000001;
  0x8000000080008081; 0x8000000000008009; 0x000000000000008a;
  0x0000000000000088; 0x0000000080008009; 0x000000008000000a;
  0x000000008000808b; 0x800000000000008b; 0x8000000000008089;
  0x8000000000008003; 0x8000000000008002; 0x8000000000000080;
  0x000000000000800a; 0x800000008000000a; 0x8000000080008081;
  0x8000000000008080; 0x0000000080000001; 0x8000000080008008]%N.

(** the lanes Xba, ..., Xsu and the columns Ca, ..., Cu, KeccakP-1600-64.macros:21-38 *)
Record lanes : Type := mkLanes { l_ba : N; l_be : N; l_bi : N; l_bo : N; l_bu : N; l_ga : N; l_ge : N; l_gi : N; l_go : N; l_gu : N; l_ka : N; l_ke : N; l_ki : N; l_ko : N; l_ku : N; l_ma : N; l_me : N; l_mi : N; l_mo : N; l_mu : N; l_sa : N; l_se : N; l_si : N; l_so : N; l_su : N }.
Record cols : Type := mkCols { l_ca : N; l_ce : N; l_ci : N; l_co : N; l_cu : N }.

(** prepareTheta, KeccakP-1600-64.macros:40-45 *)
Definition prepare_theta (A : lanes) : cols :=
  let '(mkLanes Aba Abe Abi Abo Abu Aga Age Agi Ago Agu Aka Ake Aki Ako Aku Ama Ame Ami Amo Amu Asa Ase Asi Aso Asu) := A in
  let Ca := N.lxor (N.lxor (N.lxor (N.lxor Aba Aga) Aka) Ama) Asa in
  let Ce := N.lxor (N.lxor (N.lxor (N.lxor Abe Age) Ake) Ame) Ase in
  let Ci := N.lxor (N.lxor (N.lxor (N.lxor Abi Agi) Aki) Ami) Asi in
  let Co := N.lxor (N.lxor (N.lxor (N.lxor Abo Ago) Ako) Amo) Aso in
  let Cu := N.lxor (N.lxor (N.lxor (N.lxor Abu Agu) Aku) Amu) Asu in
  mkCols Ca Ce Ci Co Cu.

(** thetaRhoPiChiIotaPrepareTheta(i, A, E), KeccakP-1600-64.macros:257-368 *)
Definition theta_rho_pi_chi_iota_prepare_theta (i : nat) (A : lanes) (C : cols) : lanes * cols :=
  let '(mkLanes Aba Abe Abi Abo Abu Aga Age Agi Ago Agu Aka Ake Aki Ako Aku Ama Ame Ami Amo Amu Asa Ase Asi Aso Asu) := A in
  let '(mkCols Ca Ce Ci Co Cu) := C in
  let Da := N.lxor Cu (rol64 Ce 1) in
  let De := N.lxor Ca (rol64 Ci 1) in
  let Di := N.lxor Ce (rol64 Co 1) in
  let Do := N.lxor Ci (rol64 Cu 1) in
  let Du := N.lxor Co (rol64 Ca 1) in
  let Aba := N.lxor Aba Da in
  let Bba := Aba in
  let Age := N.lxor Age De in
  let Bbe := (rol64 Age 44) in
  let Aki := N.lxor Aki Di in
  let Bbi := (rol64 Aki 43) in
  let Amo := N.lxor Amo Do in
  let Bbo := (rol64 Amo 21) in
  let Asu := N.lxor Asu Du in
  let Bbu := (rol64 Asu 14) in
  let Eba := N.lxor Bba (N.land (not64 Bbe) Bbi) in
  let Eba := N.lxor Eba (nth i round_constants 0%N) in
  let Ca := Eba in
  let Ebe := N.lxor Bbe (N.land (not64 Bbi) Bbo) in
  let Ce := Ebe in
  let Ebi := N.lxor Bbi (N.land (not64 Bbo) Bbu) in
  let Ci := Ebi in
  let Ebo := N.lxor Bbo (N.land (not64 Bbu) Bba) in
  let Co := Ebo in
  let Ebu := N.lxor Bbu (N.land (not64 Bba) Bbe) in
  let Cu := Ebu in
  let Abo := N.lxor Abo Do in
  let Bga := (rol64 Abo 28) in
  let Agu := N.lxor Agu Du in
  let Bge := (rol64 Agu 20) in
  let Aka := N.lxor Aka Da in
  let Bgi := (rol64 Aka 3) in
  let Ame := N.lxor Ame De in
  let Bgo := (rol64 Ame 45) in
  let Asi := N.lxor Asi Di in
  let Bgu := (rol64 Asi 61) in
  let Ega := N.lxor Bga (N.land (not64 Bge) Bgi) in
  let Ca := N.lxor Ca Ega in
  let Ege := N.lxor Bge (N.land (not64 Bgi) Bgo) in
  let Ce := N.lxor Ce Ege in
  let Egi := N.lxor Bgi (N.land (not64 Bgo) Bgu) in
  let Ci := N.lxor Ci Egi in
  let Ego := N.lxor Bgo (N.land (not64 Bgu) Bga) in
  let Co := N.lxor Co Ego in
  let Egu := N.lxor Bgu (N.land (not64 Bga) Bge) in
  let Cu := N.lxor Cu Egu in
  let Abe := N.lxor Abe De in
  let Bka := (rol64 Abe 1) in
  let Agi := N.lxor Agi Di in
  let Bke := (rol64 Agi 6) in
  let Ako := N.lxor Ako Do in
  let Bki := (rol64 Ako 25) in
  let Amu := N.lxor Amu Du in
  let Bko := (rol64 Amu 8) in
  let Asa := N.lxor Asa Da in
  let Bku := (rol64 Asa 18) in
  let Eka := N.lxor Bka (N.land (not64 Bke) Bki) in
  let Ca := N.lxor Ca Eka in
  let Eke := N.lxor Bke (N.land (not64 Bki) Bko) in
  let Ce := N.lxor Ce Eke in
  let Eki := N.lxor Bki (N.land (not64 Bko) Bku) in
  let Ci := N.lxor Ci Eki in
  let Eko := N.lxor Bko (N.land (not64 Bku) Bka) in
  let Co := N.lxor Co Eko in
  let Eku := N.lxor Bku (N.land (not64 Bka) Bke) in
  let Cu := N.lxor Cu Eku in
  let Abu := N.lxor Abu Du in
  let Bma := (rol64 Abu 27) in
  let Aga := N.lxor Aga Da in
  let Bme := (rol64 Aga 36) in
  let Ake := N.lxor Ake De in
  let Bmi := (rol64 Ake 10) in
  let Ami := N.lxor Ami Di in
  let Bmo := (rol64 Ami 15) in
  let Aso := N.lxor Aso Do in
  let Bmu := (rol64 Aso 56) in
  let Ema := N.lxor Bma (N.land (not64 Bme) Bmi) in
  let Ca := N.lxor Ca Ema in
  let Eme := N.lxor Bme (N.land (not64 Bmi) Bmo) in
  let Ce := N.lxor Ce Eme in
  let Emi := N.lxor Bmi (N.land (not64 Bmo) Bmu) in
  let Ci := N.lxor Ci Emi in
  let Emo := N.lxor Bmo (N.land (not64 Bmu) Bma) in
  let Co := N.lxor Co Emo in
  let Emu := N.lxor Bmu (N.land (not64 Bma) Bme) in
  let Cu := N.lxor Cu Emu in
  let Abi := N.lxor Abi Di in
  let Bsa := (rol64 Abi 62) in
  let Ago := N.lxor Ago Do in
  let Bse := (rol64 Ago 55) in
  let Aku := N.lxor Aku Du in
  let Bsi := (rol64 Aku 39) in
  let Ama := N.lxor Ama Da in
  let Bso := (rol64 Ama 41) in
  let Ase := N.lxor Ase De in
  let Bsu := (rol64 Ase 2) in
  let Esa := N.lxor Bsa (N.land (not64 Bse) Bsi) in
  let Ca := N.lxor Ca Esa in
  let Ese := N.lxor Bse (N.land (not64 Bsi) Bso) in
  let Ce := N.lxor Ce Ese in
  let Esi := N.lxor Bsi (N.land (not64 Bso) Bsu) in
  let Ci := N.lxor Ci Esi in
  let Eso := N.lxor Bso (N.land (not64 Bsu) Bsa) in
  let Co := N.lxor Co Eso in
  let Esu := N.lxor Bsu (N.land (not64 Bsa) Bse) in
  let Cu := N.lxor Cu Esu in
  (mkLanes Eba Ebe Ebi Ebo Ebu Ega Ege Egi Ego Egu Eka Eke Eki Eko Eku Ema Eme Emi Emo Emu Esa Ese Esi Eso Esu, mkCols Ca Ce Ci Co Cu).

(** thetaRhoPiChiIota(i, A, E), KeccakP-1600-64.macros:372-458 *)
Definition theta_rho_pi_chi_iota (i : nat) (A : lanes) (C : cols) : lanes :=
  let '(mkLanes Aba Abe Abi Abo Abu Aga Age Agi Ago Agu Aka Ake Aki Ako Aku Ama Ame Ami Amo Amu Asa Ase Asi Aso Asu) := A in
  let '(mkCols Ca Ce Ci Co Cu) := C in
  let Da := N.lxor Cu (rol64 Ce 1) in
  let De := N.lxor Ca (rol64 Ci 1) in
  let Di := N.lxor Ce (rol64 Co 1) in
  let Do := N.lxor Ci (rol64 Cu 1) in
  let Du := N.lxor Co (rol64 Ca 1) in
  let Aba := N.lxor Aba Da in
  let Bba := Aba in
  let Age := N.lxor Age De in
  let Bbe := (rol64 Age 44) in
  let Aki := N.lxor Aki Di in
  let Bbi := (rol64 Aki 43) in
  let Amo := N.lxor Amo Do in
  let Bbo := (rol64 Amo 21) in
  let Asu := N.lxor Asu Du in
  let Bbu := (rol64 Asu 14) in
  let Eba := N.lxor Bba (N.land (not64 Bbe) Bbi) in
  let Eba := N.lxor Eba (nth i round_constants 0%N) in
  let Ebe := N.lxor Bbe (N.land (not64 Bbi) Bbo) in
  let Ebi := N.lxor Bbi (N.land (not64 Bbo) Bbu) in
  let Ebo := N.lxor Bbo (N.land (not64 Bbu) Bba) in
  let Ebu := N.lxor Bbu (N.land (not64 Bba) Bbe) in
  let Abo := N.lxor Abo Do in
  let Bga := (rol64 Abo 28) in
  let Agu := N.lxor Agu Du in
  let Bge := (rol64 Agu 20) in
  let Aka := N.lxor Aka Da in
  let Bgi := (rol64 Aka 3) in
  let Ame := N.lxor Ame De in
  let Bgo := (rol64 Ame 45) in
  let Asi := N.lxor Asi Di in
  let Bgu := (rol64 Asi 61) in
  let Ega := N.lxor Bga (N.land (not64 Bge) Bgi) in
  let Ege := N.lxor Bge (N.land (not64 Bgi) Bgo) in
  let Egi := N.lxor Bgi (N.land (not64 Bgo) Bgu) in
  let Ego := N.lxor Bgo (N.land (not64 Bgu) Bga) in
  let Egu := N.lxor Bgu (N.land (not64 Bga) Bge) in
  let Abe := N.lxor Abe De in
  let Bka := (rol64 Abe 1) in
  let Agi := N.lxor Agi Di in
  let Bke := (rol64 Agi 6) in
  let Ako := N.lxor Ako Do in
  let Bki := (rol64 Ako 25) in
  let Amu := N.lxor Amu Du in
  let Bko := (rol64 Amu 8) in
  let Asa := N.lxor Asa Da in
  let Bku := (rol64 Asa 18) in
  let Eka := N.lxor Bka (N.land (not64 Bke) Bki) in
  let Eke := N.lxor Bke (N.land (not64 Bki) Bko) in
  let Eki := N.lxor Bki (N.land (not64 Bko) Bku) in
  let Eko := N.lxor Bko (N.land (not64 Bku) Bka) in
  let Eku := N.lxor Bku (N.land (not64 Bka) Bke) in
  let Abu := N.lxor Abu Du in
  let Bma := (rol64 Abu 27) in
  let Aga := N.lxor Aga Da in
  let Bme := (rol64 Aga 36) in
  let Ake := N.lxor Ake De in
  let Bmi := (rol64 Ake 10) in
  let Ami := N.lxor Ami Di in
  let Bmo := (rol64 Ami 15) in
  let Aso := N.lxor Aso Do in
  let Bmu := (rol64 Aso 56) in
  let Ema := N.lxor Bma (N.land (not64 Bme) Bmi) in
  let Eme := N.lxor Bme (N.land (not64 Bmi) Bmo) in
  let Emi := N.lxor Bmi (N.land (not64 Bmo) Bmu) in
  let Emo := N.lxor Bmo (N.land (not64 Bmu) Bma) in
  let Emu := N.lxor Bmu (N.land (not64 Bma) Bme) in
  let Abi := N.lxor Abi Di in
  let Bsa := (rol64 Abi 62) in
  let Ago := N.lxor Ago Do in
  let Bse := (rol64 Ago 55) in
  let Aku := N.lxor Aku Du in
  let Bsi := (rol64 Aku 39) in
  let Ama := N.lxor Ama Da in
  let Bso := (rol64 Ama 41) in
  let Ase := N.lxor Ase De in
  let Bsu := (rol64 Ase 2) in
  let Esa := N.lxor Bsa (N.land (not64 Bse) Bsi) in
  let Ese := N.lxor Bse (N.land (not64 Bsi) Bso) in
  let Esi := N.lxor Bsi (N.land (not64 Bso) Bsu) in
  let Eso := N.lxor Bso (N.land (not64 Bsu) Bsa) in
  let Esu := N.lxor Bsu (N.land (not64 Bsa) Bse) in
  mkLanes Eba Ebe Ebi Ebo Ebu Ega Ege Egi Ego Egu Eka Eke Eki Eko Eku Ema Eme Emi Emo Emu Esa Ese Esi Eso Esu.

(** rounds24, KeccakP-1600-unrolling.macros:18-43 *)
Definition rounds24 (A : lanes) : lanes :=
  let C := prepare_theta A in
  let (E, C) := theta_rho_pi_chi_iota_prepare_theta 0 A C in
  let (A, C) := theta_rho_pi_chi_iota_prepare_theta 1 E C in
  let (E, C) := theta_rho_pi_chi_iota_prepare_theta 2 A C in
  let (A, C) := theta_rho_pi_chi_iota_prepare_theta 3 E C in
  let (E, C) := theta_rho_pi_chi_iota_prepare_theta 4 A C in
  let (A, C) := theta_rho_pi_chi_iota_prepare_theta 5 E C in
  let (E, C) := theta_rho_pi_chi_iota_prepare_theta 6 A C in
  let (A, C) := theta_rho_pi_chi_iota_prepare_theta 7 E C in
  let (E, C) := theta_rho_pi_chi_iota_prepare_theta 8 A C in
  let (A, C) := theta_rho_pi_chi_iota_prepare_theta 9 E C in
  let (E, C) := theta_rho_pi_chi_iota_prepare_theta 10 A C in
  let (A, C) := theta_rho_pi_chi_iota_prepare_theta 11 E C in
  let (E, C) := theta_rho_pi_chi_iota_prepare_theta 12 A C in
  let (A, C) := theta_rho_pi_chi_iota_prepare_theta 13 E C in
  let (E, C) := theta_rho_pi_chi_iota_prepare_theta 14 A C in
  let (A, C) := theta_rho_pi_chi_iota_prepare_theta 15 E C in
  let (E, C) := theta_rho_pi_chi_iota_prepare_theta 16 A C in
  let (A, C) := theta_rho_pi_chi_iota_prepare_theta 17 E C in
  let (E, C) := theta_rho_pi_chi_iota_prepare_theta 18 A C in
  let (A, C) := theta_rho_pi_chi_iota_prepare_theta 19 E C in
  let (E, C) := theta_rho_pi_chi_iota_prepare_theta 20 A C in
  let (A, C) := theta_rho_pi_chi_iota_prepare_theta 21 E C in
  let (E, C) := theta_rho_pi_chi_iota_prepare_theta 22 A C in
  theta_rho_pi_chi_iota 23 E C.

(** lane i *)
Definition lane (st : bytes) (i : nat) : N := le_word (slice st (8 * i) 8).
(** copyFromState, KeccakP-1600-64.macros:462-487 *)
Definition copy_from_state (st : bytes) : lanes :=
  mkLanes (lane st 0) (lane st 1) (lane st 2) (lane st 3) (lane st 4) (lane st 5) (lane st 6) (lane st 7) (lane st 8) (lane st 9) (lane st 10) (lane st 11) (lane st 12) (lane st 13) (lane st 14) (lane st 15) (lane st 16) (lane st 17) (lane st 18) (lane st 19) (lane st 20) (lane st 21) (lane st 22) (lane st 23) (lane st 24).
(** copyToState, KeccakP-1600-64.macros:489-514 *)
Definition copy_to_state (X : lanes) : bytes :=
  concat (map (le_bytes 8) [l_ba X; l_be X; l_bi X; l_bo X; l_bu X; l_ga X; l_ge X; l_gi X; l_go X; l_gu X; l_ka X; l_ke X; l_ki X; l_ko X; l_ku X; l_ma X; l_me X; l_mi X; l_mo X; l_mu X; l_sa X; l_se X; l_si X; l_so X; l_su X]).
(** KeccakP1600_Permute_24rounds, KeccakP-1600-opt64.c:331-339 *)
Definition permute_24rounds (st : bytes) : bytes := copy_to_state (rounds24 (copy_from_state st)).
