(** keccak/avx2/KeccakP-1600-AVX2.s, translated instruction by instruction by a script (the branches of .ifdef macOS left out).
    Operands are in AT&T order.  Meaning of the instructions: X86Model.v.  A call through the PLT is a call. *)
From Coq Require Import NArith ZArith List String.
From Verif Require Import Prelude X86Model.
Import ListNotations.
Local Open Scope string_scope.

(** ** the constants, KeccakP-1600-AVX2.s:1054-1150, one after the other with the padding of .align *)
(** KeccakP-1600-AVX2.s:1061-1067 *)
Definition o_rhotates_left : Z := 0.
Definition c_rhotates_left : list N := [3; 18; 36; 41; 1; 62; 28; 27; 45; 6; 56; 39; 10; 61; 55; 8; 2; 15; 25; 20; 44; 43; 21; 14]%N.
(** KeccakP-1600-AVX2.s:1068-1074 *)
Definition o_rhotates_right : Z := 192.
Definition c_rhotates_right : list N := [61; 46; 28; 23; 63; 2; 36; 37; 19; 58; 8; 25; 54; 3; 9; 56; 62; 49; 39; 44; 20; 21; 43; 50]%N.
(** KeccakP-1600-AVX2.s:1075-1099 *)
Definition o_iotas : Z := 384.
Definition c_iotas : list N := [1; 1; 1; 1; 0x8082; 0x8082; 0x8082; 0x8082; 0x800000000000808a; 0x800000000000808a; 0x800000000000808a; 0x800000000000808a; 0x8000000080008000; 0x8000000080008000; 0x8000000080008000; 0x8000000080008000; 0x808b; 0x808b; 0x808b; 0x808b; 0x80000001; 0x80000001; 0x80000001; 0x80000001; 0x8000000080008081; 0x8000000080008081; 0x8000000080008081; 0x8000000080008081; 0x8000000000008009; 0x8000000000008009; 0x8000000000008009; 0x8000000000008009; 138; 138; 138; 138; 136; 136; 136; 136; 0x80008009; 0x80008009; 0x80008009; 0x80008009; 0x8000000a; 0x8000000a; 0x8000000a; 0x8000000a; 0x8000808b; 0x8000808b; 0x8000808b; 0x8000808b; 0x800000000000008b; 0x800000000000008b; 0x800000000000008b; 0x800000000000008b; 0x8000000000008089; 0x8000000000008089; 0x8000000000008089; 0x8000000000008089; 0x8000000000008003; 0x8000000000008003; 0x8000000000008003; 0x8000000000008003; 0x8000000000008002; 0x8000000000008002; 0x8000000000008002; 0x8000000000008002; 0x8000000000000080; 0x8000000000000080; 0x8000000000000080; 0x8000000000000080; 0x800a; 0x800a; 0x800a; 0x800a; 0x800000008000000a; 0x800000008000000a; 0x800000008000000a; 0x800000008000000a; 0x8000000080008081; 0x8000000080008081; 0x8000000080008081; 0x8000000080008081; 0x8000000000008080; 0x8000000000008080; 0x8000000000008080; 0x8000000000008080; 0x80000001; 0x80000001; 0x80000001; 0x80000001; 0x8000000080008008; 0x8000000080008008; 0x8000000080008008; 0x8000000080008008]%N.
(** KeccakP-1600-AVX2.s:1101-1106 *)
Definition o_mapState : Z := 1152.
Definition c_mapState : list N := [0; 8; 16; 24; 32; 56; 168; 80; 120; 160; 40; 104; 176; 152; 96; 64; 72; 144; 184; 128; 48; 136; 112; 88; 192]%N.
(** KeccakP-1600-AVX2.s:1113-1114 *)
Definition o_map2 : Z := 1360.
Definition c_map2 : list N := [80; 160; 40; 120]%N.
(** KeccakP-1600-AVX2.s:1115-1116 *)
Definition o_map3 : Z := 1376.
Definition c_map3 : list N := [128; 56; 184; 112]%N.
(** KeccakP-1600-AVX2.s:1117-1118 *)
Definition o_map4 : Z := 1392.
Definition c_map4 : list N := [88; 176; 64; 152]%N.
(** KeccakP-1600-AVX2.s:1119-1120 *)
Definition o_map5 : Z := 1408.
Definition c_map5 : list N := [168; 136; 104; 72]%N.
(** KeccakP-1600-AVX2.s:1121-1122 *)
Definition o_map6 : Z := 1424.
Definition c_map6 : list N := [48; 96; 144; 192]%N.
(** KeccakP-1600-AVX2.s:1129-1130 *)
Definition o_mask3_21 : Z := 1440.
Definition c_mask3_21 : list N := [0xffffffffffffffff; 0xffffffffffffffff; 0; 0xffffffffffffffff]%N.
(** KeccakP-1600-AVX2.s:1131-1132 *)
Definition o_mask4_21 : Z := 1472.
Definition c_mask4_21 : list N := [0xffffffffffffffff; 0; 0xffffffffffffffff; 0xffffffffffffffff]%N.
(** KeccakP-1600-AVX2.s:1133-1134 *)
Definition o_mask5_21 : Z := 1504.
Definition c_mask5_21 : list N := [0; 0xffffffffffffffff; 0xffffffffffffffff; 0xffffffffffffffff]%N.
(** KeccakP-1600-AVX2.s:1135-1136 *)
Definition o_mask6_21 : Z := 1536.
Definition c_mask6_21 : list N := [0xffffffffffffffff; 0xffffffffffffffff; 0xffffffffffffffff; 0]%N.
(** KeccakP-1600-AVX2.s:1138-1139 *)
Definition o_mask2_17 : Z := 1568.
Definition c_mask2_17 : list N := [0xffffffffffffffff; 0; 0xffffffffffffffff; 0xffffffffffffffff]%N.
(** KeccakP-1600-AVX2.s:1140-1141 *)
Definition o_mask3_17 : Z := 1600.
Definition c_mask3_17 : list N := [0xffffffffffffffff; 0xffffffffffffffff; 0; 0xffffffffffffffff]%N.
(** KeccakP-1600-AVX2.s:1142-1143 *)
Definition o_mask4_17 : Z := 1632.
Definition c_mask4_17 : list N := [0xffffffffffffffff; 0; 0xffffffffffffffff; 0]%N.
(** KeccakP-1600-AVX2.s:1144-1145 *)
Definition o_mask5_17 : Z := 1664.
Definition c_mask5_17 : list N := [0; 0; 0xffffffffffffffff; 0xffffffffffffffff]%N.
(** KeccakP-1600-AVX2.s:1146-1147 *)
Definition o_mask6_17 : Z := 1696.
Definition c_mask6_17 : list N := [0xffffffffffffffff; 0xffffffffffffffff; 0; 0]%N.
Definition constants : bytes := Eval vm_compute in (flat_map (le_bytes 8) c_rhotates_left ++ flat_map (le_bytes 8) c_rhotates_right ++ flat_map (le_bytes 8) c_iotas ++ flat_map (le_bytes 8) c_mapState ++ repeat 0%N 8 ++ flat_map (le_bytes 4) c_map2 ++ flat_map (le_bytes 4) c_map3 ++ flat_map (le_bytes 4) c_map4 ++ flat_map (le_bytes 4) c_map5 ++ flat_map (le_bytes 4) c_map6 ++ flat_map (le_bytes 8) c_mask3_21 ++ flat_map (le_bytes 8) c_mask4_21 ++ flat_map (le_bytes 8) c_mask5_21 ++ flat_map (le_bytes 8) c_mask6_21 ++ flat_map (le_bytes 8) c_mask2_17 ++ flat_map (le_bytes 8) c_mask3_17 ++ flat_map (le_bytes 8) c_mask4_17 ++ flat_map (le_bytes 8) c_mask5_17 ++ flat_map (le_bytes 8) c_mask6_17)%list.

(** ** the code *)

(** KeccakP1600_Initialize, KeccakP-1600-AVX2.s:33-43 *)
Definition code_KeccakP1600_Initialize : list item := [
  Lb "KeccakP1600_Initialize";
  In (Vbin VXOR (Ym 0) 0 0);
  In (Vmovdqa_st 0 (Ab RDI 0));
  In (Vmovdqa_st 0 (Ab RDI 32));
  In (Vmovdqa_st 0 (Ab RDI 64));
  In (Vmovdqa_st 0 (Ab RDI 96));
  In (Vmovdqa_st 0 (Ab RDI 128));
  In (Vmovdqa_st 0 (Ab RDI 160));
  In (Imov B8 (Im 0) (Me (Ab RDI 192)));
  In (Iret)].
(** KeccakP1600_AddByte, KeccakP-1600-AVX2.s:63-73 *)
Definition code_KeccakP1600_AddByte : list item := [
  Lb "KeccakP1600_AddByte";
  In (Imov B8 (Rg RDX) (Rg RAX));
  In (Ibin AND B8 (Im 7) (Rg RAX));
  In (Ibin AND B4 (Im 4294967288) (Rg RDX));
  In (Ilea (Arip (o_mapState)%Z) R9);
  In (Imov B8 (Me (Ai R9 RDX)) (Rg RDX));
  In (Ibin ADD B8 (Rg RDX) (Rg RDI));
  In (Ibin ADD B8 (Rg RAX) (Rg RDI));
  In (Ibin XOR B1 (Rg RSI) (Me (Ab RDI 0)));
  In (Iret)].
(** KeccakP1600_AddBytes, KeccakP-1600-AVX2.s:93-142 *)
Definition code_KeccakP1600_AddBytes : list item := [
  Lb "KeccakP1600_AddBytes";
  In (Ibin CMP B8 (Im 0) (Rg RCX));
  In (Ijcc CZ "KeccakP1600_AddBytes_Exit");
  In (Imov B8 (Rg RDX) (Rg RAX));
  In (Ibin AND B4 (Im 4294967288) (Rg RDX));
  In (Ilea (Arip (o_mapState)%Z) R9);
  In (Ibin ADD B8 (Rg R9) (Rg RDX));
  In (Ibin AND B8 (Im 7) (Rg RAX));
  In (Ijcc CZ "KeccakP1600_AddBytes_LaneAlignedCheck");
  In (Imov B8 (Im 8) (Rg R9));
  In (Ibin SUB B8 (Rg RAX) (Rg R9));
  In (Ibin CMP B8 (Rg RCX) (Rg R9));
  In (Icmovae RCX R9);
  In (Ibin SUB B8 (Rg R9) (Rg RCX));
  In (Ibin ADD B8 (Me (Ab RDX 0)) (Rg RAX));
  In (Ibin ADD B8 (Im 8) (Rg RDX));
  In (Ibin ADD B8 (Rg RDI) (Rg RAX));
  Lb "KeccakP1600_AddBytes_NotAlignedLoop";
  In (Imov B1 (Me (Ab RSI 0)) (Rg R8));
  In (Iinc RSI);
  In (Ibin XOR B1 (Rg R8) (Me (Ab RAX 0)));
  In (Iinc RAX);
  In (Idec B8 R9);
  In (Ijcc CNZ "KeccakP1600_AddBytes_NotAlignedLoop");
  In (Ijmp "KeccakP1600_AddBytes_LaneAlignedCheck");
  Lb "KeccakP1600_AddBytes_LaneAlignedLoop";
  In (Imov B8 (Me (Ab RSI 0)) (Rg R8));
  In (Ibin ADD B8 (Im 8) (Rg RSI));
  In (Imov B8 (Me (Ab RDX 0)) (Rg RAX));
  In (Ibin ADD B8 (Im 8) (Rg RDX));
  In (Ibin ADD B8 (Rg RDI) (Rg RAX));
  In (Ibin XOR B8 (Rg R8) (Me (Ab RAX 0)));
  Lb "KeccakP1600_AddBytes_LaneAlignedCheck";
  In (Ibin SUB B8 (Im 8) (Rg RCX));
  In (Ijcc CAE "KeccakP1600_AddBytes_LaneAlignedLoop");
  Lb "KeccakP1600_AddBytes_LastIncompleteLane";
  In (Ibin ADD B8 (Im 8) (Rg RCX));
  In (Ijcc CZ "KeccakP1600_AddBytes_Exit");
  In (Imov B8 (Me (Ab RDX 0)) (Rg RAX));
  In (Ibin ADD B8 (Rg RDI) (Rg RAX));
  Lb "KeccakP1600_AddBytes_LastIncompleteLaneLoop";
  In (Imov B1 (Me (Ab RSI 0)) (Rg R8));
  In (Iinc RSI);
  In (Ibin XOR B1 (Rg R8) (Me (Ab RAX 0)));
  In (Iinc RAX);
  In (Idec B8 RCX);
  In (Ijcc CNZ "KeccakP1600_AddBytes_LastIncompleteLaneLoop");
  Lb "KeccakP1600_AddBytes_Exit";
  In (Iret)].
(** KeccakP1600_OverwriteBytes, KeccakP-1600-AVX2.s:162-211 *)
Definition code_KeccakP1600_OverwriteBytes : list item := [
  Lb "KeccakP1600_OverwriteBytes";
  In (Ibin CMP B8 (Im 0) (Rg RCX));
  In (Ijcc CZ "KeccakP1600_OverwriteBytes_Exit");
  In (Imov B8 (Rg RDX) (Rg RAX));
  In (Ibin AND B4 (Im 4294967288) (Rg RDX));
  In (Ilea (Arip (o_mapState)%Z) R9);
  In (Ibin ADD B8 (Rg R9) (Rg RDX));
  In (Ibin AND B8 (Im 7) (Rg RAX));
  In (Ijcc CZ "KeccakP1600_OverwriteBytes_LaneAlignedCheck");
  In (Imov B8 (Im 8) (Rg R9));
  In (Ibin SUB B8 (Rg RAX) (Rg R9));
  In (Ibin CMP B8 (Rg RCX) (Rg R9));
  In (Icmovae RCX R9);
  In (Ibin SUB B8 (Rg R9) (Rg RCX));
  In (Ibin ADD B8 (Me (Ab RDX 0)) (Rg RAX));
  In (Ibin ADD B8 (Im 8) (Rg RDX));
  In (Ibin ADD B8 (Rg RDI) (Rg RAX));
  Lb "KeccakP1600_OverwriteBytes_NotAlignedLoop";
  In (Imov B1 (Me (Ab RSI 0)) (Rg R8));
  In (Iinc RSI);
  In (Imov B1 (Rg R8) (Me (Ab RAX 0)));
  In (Iinc RAX);
  In (Idec B8 R9);
  In (Ijcc CNZ "KeccakP1600_OverwriteBytes_NotAlignedLoop");
  In (Ijmp "KeccakP1600_OverwriteBytes_LaneAlignedCheck");
  Lb "KeccakP1600_OverwriteBytes_LaneAlignedLoop";
  In (Imov B8 (Me (Ab RSI 0)) (Rg R8));
  In (Ibin ADD B8 (Im 8) (Rg RSI));
  In (Imov B8 (Me (Ab RDX 0)) (Rg RAX));
  In (Ibin ADD B8 (Im 8) (Rg RDX));
  In (Ibin ADD B8 (Rg RDI) (Rg RAX));
  In (Imov B8 (Rg R8) (Me (Ab RAX 0)));
  Lb "KeccakP1600_OverwriteBytes_LaneAlignedCheck";
  In (Ibin SUB B8 (Im 8) (Rg RCX));
  In (Ijcc CAE "KeccakP1600_OverwriteBytes_LaneAlignedLoop");
  Lb "KeccakP1600_OverwriteBytes_LastIncompleteLane";
  In (Ibin ADD B8 (Im 8) (Rg RCX));
  In (Ijcc CZ "KeccakP1600_OverwriteBytes_Exit");
  In (Imov B8 (Me (Ab RDX 0)) (Rg RAX));
  In (Ibin ADD B8 (Rg RDI) (Rg RAX));
  Lb "KeccakP1600_OverwriteBytes_LastIncompleteLaneLoop";
  In (Imov B1 (Me (Ab RSI 0)) (Rg R8));
  In (Iinc RSI);
  In (Imov B1 (Rg R8) (Me (Ab RAX 0)));
  In (Iinc RAX);
  In (Idec B8 RCX);
  In (Ijcc CNZ "KeccakP1600_OverwriteBytes_LastIncompleteLaneLoop");
  Lb "KeccakP1600_OverwriteBytes_Exit";
  In (Iret)].
(** KeccakP1600_OverwriteWithZeroes, KeccakP-1600-AVX2.s:231-256 *)
Definition code_KeccakP1600_OverwriteWithZeroes : list item := [
  Lb "KeccakP1600_OverwriteWithZeroes";
  In (Ibin CMP B8 (Im 0) (Rg RSI));
  In (Ijcc CZ "KeccakP1600_OverwriteWithZeroes_Exit");
  In (Ilea (Arip (o_mapState)%Z) RDX);
  In (Ijmp "KeccakP1600_OverwriteWithZeroes_LaneAlignedCheck");
  Lb "KeccakP1600_OverwriteWithZeroes_LaneAlignedLoop";
  In (Imov B8 (Me (Ab RDX 0)) (Rg RAX));
  In (Ibin ADD B8 (Im 8) (Rg RDX));
  In (Ibin ADD B8 (Rg RDI) (Rg RAX));
  In (Imov B8 (Im 0) (Me (Ab RAX 0)));
  Lb "KeccakP1600_OverwriteWithZeroes_LaneAlignedCheck";
  In (Ibin SUB B8 (Im 8) (Rg RSI));
  In (Ijcc CAE "KeccakP1600_OverwriteWithZeroes_LaneAlignedLoop");
  Lb "KeccakP1600_OverwriteWithZeroes_LastIncompleteLane";
  In (Ibin ADD B8 (Im 8) (Rg RSI));
  In (Ijcc CZ "KeccakP1600_OverwriteWithZeroes_Exit");
  In (Imov B8 (Me (Ab RDX 0)) (Rg RAX));
  In (Ibin ADD B8 (Rg RDI) (Rg RAX));
  Lb "KeccakP1600_OverwriteWithZeroes_LastIncompleteLaneLoop";
  In (Imov B1 (Im 0) (Me (Ab RAX 0)));
  In (Iinc RAX);
  In (Idec B8 RSI);
  In (Ijcc CNZ "KeccakP1600_OverwriteWithZeroes_LastIncompleteLaneLoop");
  Lb "KeccakP1600_OverwriteWithZeroes_Exit";
  In (Iret)].
(** KeccakP1600_ExtractBytes, KeccakP-1600-AVX2.s:276-328 *)
Definition code_KeccakP1600_ExtractBytes : list item := [
  Lb "KeccakP1600_ExtractBytes";
  In (Ipush RBX);
  In (Ibin CMP B8 (Im 0) (Rg RCX));
  In (Ijcc CZ "KeccakP1600_ExtractBytes_Exit");
  In (Imov B8 (Rg RDX) (Rg RAX));
  In (Ibin AND B4 (Im 4294967288) (Rg RDX));
  In (Ilea (Arip (o_mapState)%Z) R9);
  In (Ibin ADD B8 (Rg R9) (Rg RDX));
  In (Ibin AND B8 (Im 7) (Rg RAX));
  In (Ijcc CZ "KeccakP1600_ExtractBytes_LaneAlignedCheck");
  In (Imov B8 (Im 8) (Rg RBX));
  In (Ibin SUB B8 (Rg RAX) (Rg RBX));
  In (Ibin CMP B8 (Rg RCX) (Rg RBX));
  In (Icmovae RCX RBX);
  In (Ibin SUB B8 (Rg RBX) (Rg RCX));
  In (Imov B8 (Me (Ab RDX 0)) (Rg R9));
  In (Ibin ADD B8 (Im 8) (Rg RDX));
  In (Ibin ADD B8 (Rg RDI) (Rg R9));
  In (Ibin ADD B8 (Rg RAX) (Rg R9));
  Lb "KeccakP1600_ExtractBytes_NotAlignedLoop";
  In (Imov B1 (Me (Ab R9 0)) (Rg R8));
  In (Iinc R9);
  In (Imov B1 (Rg R8) (Me (Ab RSI 0)));
  In (Iinc RSI);
  In (Idec B8 RBX);
  In (Ijcc CNZ "KeccakP1600_ExtractBytes_NotAlignedLoop");
  In (Ijmp "KeccakP1600_ExtractBytes_LaneAlignedCheck");
  Lb "KeccakP1600_ExtractBytes_LaneAlignedLoop";
  In (Imov B8 (Me (Ab RDX 0)) (Rg RAX));
  In (Ibin ADD B8 (Im 8) (Rg RDX));
  In (Ibin ADD B8 (Rg RDI) (Rg RAX));
  In (Imov B8 (Me (Ab RAX 0)) (Rg R8));
  In (Imov B8 (Rg R8) (Me (Ab RSI 0)));
  In (Ibin ADD B8 (Im 8) (Rg RSI));
  Lb "KeccakP1600_ExtractBytes_LaneAlignedCheck";
  In (Ibin SUB B8 (Im 8) (Rg RCX));
  In (Ijcc CAE "KeccakP1600_ExtractBytes_LaneAlignedLoop");
  Lb "KeccakP1600_ExtractBytes_LastIncompleteLane";
  In (Ibin ADD B8 (Im 8) (Rg RCX));
  In (Ijcc CZ "KeccakP1600_ExtractBytes_Exit");
  In (Imov B8 (Me (Ab RDX 0)) (Rg RAX));
  In (Ibin ADD B8 (Rg RDI) (Rg RAX));
  In (Imov B8 (Me (Ab RAX 0)) (Rg R8));
  Lb "KeccakP1600_ExtractBytes_LastIncompleteLaneLoop";
  In (Imov B1 (Rg R8) (Me (Ab RSI 0)));
  In (Ishr 8 R8);
  In (Iinc RSI);
  In (Idec B8 RCX);
  In (Ijcc CNZ "KeccakP1600_ExtractBytes_LastIncompleteLaneLoop");
  Lb "KeccakP1600_ExtractBytes_Exit";
  In (Ipop RBX);
  In (Iret)].
(** KeccakP1600_ExtractAndAddBytes, KeccakP-1600-AVX2.s:348-408 *)
Definition code_KeccakP1600_ExtractAndAddBytes : list item := [
  Lb "KeccakP1600_ExtractAndAddBytes";
  In (Ipush RBX);
  In (Ipush R10);
  In (Ibin CMP B8 (Im 0) (Rg R8));
  In (Ijcc CZ "KeccakP1600_ExtractAndAddBytes_Exit");
  In (Imov B8 (Rg RCX) (Rg RAX));
  In (Ibin AND B4 (Im 4294967288) (Rg RCX));
  In (Ilea (Arip (o_mapState)%Z) R9);
  In (Ibin ADD B8 (Rg R9) (Rg RCX));
  In (Ibin AND B8 (Im 7) (Rg RAX));
  In (Ijcc CZ "KeccakP1600_ExtractAndAddBytes_LaneAlignedCheck");
  In (Imov B8 (Im 8) (Rg RBX));
  In (Ibin SUB B8 (Rg RAX) (Rg RBX));
  In (Ibin CMP B8 (Rg R8) (Rg RBX));
  In (Icmovae R8 RBX);
  In (Ibin SUB B8 (Rg RBX) (Rg R8));
  In (Imov B8 (Me (Ab RCX 0)) (Rg R9));
  In (Ibin ADD B8 (Im 8) (Rg RCX));
  In (Ibin ADD B8 (Rg RDI) (Rg R9));
  In (Ibin ADD B8 (Rg RAX) (Rg R9));
  Lb "KeccakP1600_ExtractAndAddBytes_NotAlignedLoop";
  In (Imov B1 (Me (Ab R9 0)) (Rg R10));
  In (Iinc R9);
  In (Ibin XOR B1 (Me (Ab RSI 0)) (Rg R10));
  In (Iinc RSI);
  In (Imov B1 (Rg R10) (Me (Ab RDX 0)));
  In (Iinc RDX);
  In (Idec B8 RBX);
  In (Ijcc CNZ "KeccakP1600_ExtractAndAddBytes_NotAlignedLoop");
  In (Ijmp "KeccakP1600_ExtractAndAddBytes_LaneAlignedCheck");
  Lb "KeccakP1600_ExtractAndAddBytes_LaneAlignedLoop";
  In (Imov B8 (Me (Ab RCX 0)) (Rg RAX));
  In (Ibin ADD B8 (Im 8) (Rg RCX));
  In (Ibin ADD B8 (Rg RDI) (Rg RAX));
  In (Imov B8 (Me (Ab RAX 0)) (Rg R10));
  In (Ibin XOR B8 (Me (Ab RSI 0)) (Rg R10));
  In (Ibin ADD B8 (Im 8) (Rg RSI));
  In (Imov B8 (Rg R10) (Me (Ab RDX 0)));
  In (Ibin ADD B8 (Im 8) (Rg RDX));
  Lb "KeccakP1600_ExtractAndAddBytes_LaneAlignedCheck";
  In (Ibin SUB B8 (Im 8) (Rg R8));
  In (Ijcc CAE "KeccakP1600_ExtractAndAddBytes_LaneAlignedLoop");
  Lb "KeccakP1600_ExtractAndAddBytes_LastIncompleteLane";
  In (Ibin ADD B8 (Im 8) (Rg R8));
  In (Ijcc CZ "KeccakP1600_ExtractAndAddBytes_Exit");
  In (Imov B8 (Me (Ab RCX 0)) (Rg RAX));
  In (Ibin ADD B8 (Rg RDI) (Rg RAX));
  In (Imov B8 (Me (Ab RAX 0)) (Rg R10));
  Lb "KeccakP1600_ExtractAndAddBytes_LastIncompleteLaneLoop";
  In (Ibin XOR B1 (Me (Ab RSI 0)) (Rg R10));
  In (Iinc RSI);
  In (Imov B1 (Rg R10) (Me (Ab RDX 0)));
  In (Iinc RDX);
  In (Ishr 8 R10);
  In (Idec B8 R8);
  In (Ijcc CNZ "KeccakP1600_ExtractAndAddBytes_LastIncompleteLaneLoop");
  Lb "KeccakP1600_ExtractAndAddBytes_Exit";
  In (Ipop R10);
  In (Ipop RBX);
  In (Iret)].
(** __KeccakF1600, KeccakP-1600-AVX2.s:424-561 *)
Definition code_KeccakF1600 : list item := [
  Lb "__KeccakF1600";
  Lb ".Loop_avx2";
  In (Vpshufd 78 2 13);
  In (Vbin VXOR (Ym 3) 5 12);
  In (Vbin VXOR (Ym 6) 4 9);
  In (Vbin VXOR (Ym 1) 12 12);
  In (Vbin VXOR (Ym 9) 12 12);
  In (Vpermq 147 12 11);
  In (Vbin VXOR (Ym 2) 13 13);
  In (Vpermq 78 13 7);
  In (Vpsrlq 63 12 8);
  In (Vbin VADDQ (Ym 12) 12 9);
  In (Vbin VOR (Ym 9) 8 8);
  In (Vpermq 57 8 15);
  In (Vbin VXOR (Ym 11) 8 14);
  In (Vpermq 0 14 14);
  In (Vbin VXOR (Ym 0) 13 13);
  In (Vbin VXOR (Ym 7) 13 13);
  In (Vpsrlq 63 13 7);
  In (Vbin VADDQ (Ym 13) 13 8);
  In (Vbin VOR (Ym 7) 8 8);
  In (Vbin VXOR (Ym 14) 2 2);
  In (Vbin VXOR (Ym 14) 0 0);
  In (Vpblendd 192 8 15 15);
  In (Vpblendd 3 13 11 11);
  In (Vbin VXOR (Ym 11) 15 15);
  In (Vpsllvq (Ab R8 (-96)) 2 10);
  In (Vpsrlvq (Ab R9 (-96)) 2 2);
  In (Vbin VOR (Ym 10) 2 2);
  In (Vbin VXOR (Ym 15) 3 3);
  In (Vpsllvq (Ab R8 (-32)) 3 11);
  In (Vpsrlvq (Ab R9 (-32)) 3 3);
  In (Vbin VOR (Ym 11) 3 3);
  In (Vbin VXOR (Ym 15) 4 4);
  In (Vpsllvq (Ab R8 0) 4 12);
  In (Vpsrlvq (Ab R9 0) 4 4);
  In (Vbin VOR (Ym 12) 4 4);
  In (Vbin VXOR (Ym 15) 5 5);
  In (Vpsllvq (Ab R8 32) 5 13);
  In (Vpsrlvq (Ab R9 32) 5 5);
  In (Vbin VOR (Ym 13) 5 5);
  In (Vbin VXOR (Ym 15) 6 6);
  In (Vpermq 141 2 10);
  In (Vpermq 141 3 11);
  In (Vpsllvq (Ab R8 64) 6 14);
  In (Vpsrlvq (Ab R9 64) 6 8);
  In (Vbin VOR (Ym 14) 8 8);
  In (Vbin VXOR (Ym 15) 1 1);
  In (Vpermq 27 4 12);
  In (Vpermq 114 5 13);
  In (Vpsllvq (Ab R8 (-64)) 1 15);
  In (Vpsrlvq (Ab R9 (-64)) 1 9);
  In (Vbin VOR (Ym 15) 9 9);
  In (Vpsrldq8 8 14);
  In (Vbin VANDN (Ym 14) 8 7);
  In (Vpblendd 12 13 9 3);
  In (Vpblendd 12 9 11 15);
  In (Vpblendd 12 11 10 5);
  In (Vpblendd 12 10 9 14);
  In (Vpblendd 48 11 3 3);
  In (Vpblendd 48 12 15 15);
  In (Vpblendd 48 9 5 5);
  In (Vpblendd 48 13 14 14);
  In (Vpblendd 192 12 3 3);
  In (Vpblendd 192 13 15 15);
  In (Vpblendd 192 13 5 5);
  In (Vpblendd 192 11 14 14);
  In (Vbin VANDN (Ym 15) 3 3);
  In (Vbin VANDN (Ym 14) 5 5);
  In (Vpblendd 12 9 12 6);
  In (Vpblendd 12 12 10 15);
  In (Vbin VXOR (Ym 10) 3 3);
  In (Vpblendd 48 10 6 6);
  In (Vpblendd 48 11 15 15);
  In (Vbin VXOR (Ym 12) 5 5);
  In (Vpblendd 192 11 6 6);
  In (Vpblendd 192 9 15 15);
  In (Vbin VANDN (Ym 15) 6 6);
  In (Vbin VXOR (Ym 13) 6 6);
  In (Vpermq 30 8 4);
  In (Vpblendd 48 0 4 15);
  In (Vpermq 57 8 1);
  In (Vpblendd 192 0 1 1);
  In (Vbin VANDN (Ym 15) 1 1);
  In (Vpblendd 12 12 11 2);
  In (Vpblendd 12 11 13 14);
  In (Vpblendd 48 13 2 2);
  In (Vpblendd 48 10 14 14);
  In (Vpblendd 192 10 2 2);
  In (Vpblendd 192 12 14 14);
  In (Vbin VANDN (Ym 14) 2 2);
  In (Vbin VXOR (Ym 9) 2 2);
  In (Vpermq 0 7 7);
  In (Vpermq 27 3 3);
  In (Vpermq 141 5 5);
  In (Vpermq 114 6 6);
  In (Vpblendd 12 10 13 4);
  In (Vpblendd 12 13 12 14);
  In (Vpblendd 48 12 4 4);
  In (Vpblendd 48 9 14 14);
  In (Vpblendd 192 9 4 4);
  In (Vpblendd 192 10 14 14);
  In (Vbin VANDN (Ym 14) 4 4);
  In (Vbin VXOR (Ym 7) 0 0);
  In (Vbin VXOR (Ym 8) 1 1);
  In (Vbin VXOR (Ym 11) 4 4);
  In (Vbin VXOR (Vm (Ab R10 0)) 0 0);
  In (Ilea (Ab R10 32) R10);
  In (Idec B4 RAX);
  In (Ijcc CNZ ".Loop_avx2");
  In (Iret)].
(** KeccakP1600_Permute_24rounds, KeccakP-1600-AVX2.s:578-602 *)
Definition code_KeccakP1600_Permute_24rounds : list item := [
  Lb "KeccakP1600_Permute_24rounds";
  In (Ilea (Arip (o_rhotates_left + 96)%Z) R8);
  In (Ilea (Arip (o_rhotates_right + 96)%Z) R9);
  In (Ilea (Arip (o_iotas)%Z) R10);
  In (Imov B4 (Im 24) (Rg RAX));
  In (Ilea (Ab RDI 96) RDI);
  In (Vzeroupper);
  In (Vpbroadcastq (Ab RDI (-96)) 0);
  In (Vmovdqu (Ab RDI (-88)) 1);
  In (Vmovdqu (Ab RDI (-56)) 2);
  In (Vmovdqu (Ab RDI (-24)) 3);
  In (Vmovdqu (Ab RDI 8) 4);
  In (Vmovdqu (Ab RDI 40) 5);
  In (Vmovdqu (Ab RDI 72) 6);
  In (Icall "__KeccakF1600");
  In (Vmovq_st 0 (Ab RDI (-96)));
  In (Vmovdqu_st 1 (Ab RDI (-88)));
  In (Vmovdqu_st 2 (Ab RDI (-56)));
  In (Vmovdqu_st 3 (Ab RDI (-24)));
  In (Vmovdqu_st 4 (Ab RDI 8));
  In (Vmovdqu_st 5 (Ab RDI 40));
  In (Vmovdqu_st 6 (Ab RDI 72));
  In (Vzeroupper);
  In (Iret)].
(** KeccakP1600_Permute_12rounds, KeccakP-1600-AVX2.s:617-641 *)
Definition code_KeccakP1600_Permute_12rounds : list item := [
  Lb "KeccakP1600_Permute_12rounds";
  In (Ilea (Arip (o_rhotates_left + 96)%Z) R8);
  In (Ilea (Arip (o_rhotates_right + 96)%Z) R9);
  In (Ilea (Arip (o_iotas + 384)%Z) R10);
  In (Imov B4 (Im 12) (Rg RAX));
  In (Ilea (Ab RDI 96) RDI);
  In (Vzeroupper);
  In (Vpbroadcastq (Ab RDI (-96)) 0);
  In (Vmovdqu (Ab RDI (-88)) 1);
  In (Vmovdqu (Ab RDI (-56)) 2);
  In (Vmovdqu (Ab RDI (-24)) 3);
  In (Vmovdqu (Ab RDI 8) 4);
  In (Vmovdqu (Ab RDI 40) 5);
  In (Vmovdqu (Ab RDI 72) 6);
  In (Icall "__KeccakF1600");
  In (Vmovq_st 0 (Ab RDI (-96)));
  In (Vmovdqu_st 1 (Ab RDI (-88)));
  In (Vmovdqu_st 2 (Ab RDI (-56)));
  In (Vmovdqu_st 3 (Ab RDI (-24)));
  In (Vmovdqu_st 4 (Ab RDI 8));
  In (Vmovdqu_st 5 (Ab RDI 40));
  In (Vmovdqu_st 6 (Ab RDI 72));
  In (Vzeroupper);
  In (Iret)].
(** KeccakP1600_Permute_Nrounds, KeccakP-1600-AVX2.s:656-682 *)
Definition code_KeccakP1600_Permute_Nrounds : list item := [
  Lb "KeccakP1600_Permute_Nrounds";
  In (Ilea (Arip (o_rhotates_left + 96)%Z) R8);
  In (Ilea (Arip (o_rhotates_right + 96)%Z) R9);
  In (Ilea (Arip (o_iotas + 768)%Z) R10);
  In (Imov B8 (Rg RSI) (Rg RAX));
  In (Ishl 5 RSI);
  In (Ibin SUB B8 (Rg RSI) (Rg R10));
  In (Ilea (Ab RDI 96) RDI);
  In (Vzeroupper);
  In (Vpbroadcastq (Ab RDI (-96)) 0);
  In (Vmovdqu (Ab RDI (-88)) 1);
  In (Vmovdqu (Ab RDI (-56)) 2);
  In (Vmovdqu (Ab RDI (-24)) 3);
  In (Vmovdqu (Ab RDI 8) 4);
  In (Vmovdqu (Ab RDI 40) 5);
  In (Vmovdqu (Ab RDI 72) 6);
  In (Icall "__KeccakF1600");
  In (Vmovq_st 0 (Ab RDI (-96)));
  In (Vmovdqu_st 1 (Ab RDI (-88)));
  In (Vmovdqu_st 2 (Ab RDI (-56)));
  In (Vmovdqu_st 3 (Ab RDI (-24)));
  In (Vmovdqu_st 4 (Ab RDI 8));
  In (Vmovdqu_st 5 (Ab RDI 40));
  In (Vmovdqu_st 6 (Ab RDI 72));
  In (Vzeroupper);
  In (Iret)].
(** KeccakF1600_FastLoop_Absorb, KeccakP-1600-AVX2.s:702-865 *)
Definition code_KeccakF1600_FastLoop_Absorb : list item := [
  Lb "KeccakF1600_FastLoop_Absorb";
  In (Ipush RBX);
  In (Ipush R10);
  In (Ishr 3 RCX);
  In (Imov B8 (Rg RDX) (Rg RBX));
  In (Ibin CMP B8 (Rg RSI) (Rg RCX));
  In (Ijcc CB "KeccakF1600_FastLoop_Absorb_Exit");
  In (Vzeroupper);
  In (Ibin CMP B8 (Im 21) (Rg RSI));
  In (Ijcc CNZ "KeccakF1600_FastLoop_Absorb_Not21Lanes");
  In (Ibin SUB B8 (Im 21) (Rg RCX));
  In (Ilea (Arip (o_rhotates_left + 96)%Z) R8);
  In (Ilea (Arip (o_rhotates_right + 96)%Z) R9);
  In (Ilea (Ab RDI 96) RDI);
  In (Vpbroadcastq (Ab RDI (-96)) 0);
  In (Vmovdqu (Ab RDI (-88)) 1);
  In (Vmovdqu (Ab RDI (-56)) 2);
  In (Vmovdqu (Ab RDI (-24)) 3);
  In (Vmovdqu (Ab RDI 8) 4);
  In (Vmovdqu (Ab RDI 40) 5);
  In (Vmovdqu (Ab RDI 72) 6);
  Lb "KeccakF1600_FastLoop_Absorb_Loop21Lanes";
  In (Vpbroadcastq (Ab RDX 0) 7);
  In (Vmovdqu (Ab RDX 8) 8);
  In (Vmovdqa_x (Arip (o_map2)%Z) 15);
  In (Vpcmpeqd_same 14 14);
  In (Vpgatherdq 14 RDX 15 9);
  In (Vmovdqa (Arip (o_mask3_21)%Z) 14);
  In (Vbin VXOR (Ym 10) 10 10);
  In (Vmovdqa_x (Arip (o_map3)%Z) 15);
  In (Vpgatherdq 14 RDX 15 10);
  In (Vmovdqa (Arip (o_mask4_21)%Z) 14);
  In (Vbin VXOR (Ym 11) 11 11);
  In (Vmovdqa_x (Arip (o_map4)%Z) 15);
  In (Vpgatherdq 14 RDX 15 11);
  In (Vmovdqa (Arip (o_mask5_21)%Z) 14);
  In (Vbin VXOR (Ym 12) 12 12);
  In (Vmovdqa_x (Arip (o_map5)%Z) 15);
  In (Vpgatherdq 14 RDX 15 12);
  In (Vmovdqa (Arip (o_mask6_21)%Z) 14);
  In (Vbin VXOR (Ym 13) 13 13);
  In (Vmovdqa_x (Arip (o_map6)%Z) 15);
  In (Vpgatherdq 14 RDX 15 13);
  In (Vbin VXOR (Ym 7) 0 0);
  In (Vbin VXOR (Ym 8) 1 1);
  In (Vbin VXOR (Ym 9) 2 2);
  In (Vbin VXOR (Ym 10) 3 3);
  In (Vbin VXOR (Ym 11) 4 4);
  In (Vbin VXOR (Ym 12) 5 5);
  In (Vbin VXOR (Ym 13) 6 6);
  In (Ibin ADD B8 (Im 168) (Rg RDX));
  In (Ilea (Arip (o_iotas)%Z) R10);
  In (Imov B4 (Im 24) (Rg RAX));
  In (Icall "__KeccakF1600");
  In (Ibin SUB B8 (Im 21) (Rg RCX));
  In (Ijcc CAE "KeccakF1600_FastLoop_Absorb_Loop21Lanes");
  Lb "KeccakF1600_FastLoop_Absorb_SaveAndExit";
  In (Vmovq_st 0 (Ab RDI (-96)));
  In (Vmovdqu_st 1 (Ab RDI (-88)));
  In (Vmovdqu_st 2 (Ab RDI (-56)));
  In (Vmovdqu_st 3 (Ab RDI (-24)));
  In (Vmovdqu_st 4 (Ab RDI 8));
  In (Vmovdqu_st 5 (Ab RDI 40));
  In (Vmovdqu_st 6 (Ab RDI 72));
  Lb "KeccakF1600_FastLoop_Absorb_Exit";
  In (Vzeroupper);
  In (Imov B8 (Rg RDX) (Rg RAX));
  In (Ibin SUB B8 (Rg RBX) (Rg RAX));
  In (Ipop R10);
  In (Ipop RBX);
  In (Iret);
  Lb "KeccakF1600_FastLoop_Absorb_Not21Lanes";
  In (Ibin CMP B8 (Im 17) (Rg RSI));
  In (Ijcc CNZ "KeccakF1600_FastLoop_Absorb_Not17Lanes");
  In (Ibin SUB B8 (Im 17) (Rg RCX));
  In (Ilea (Arip (o_rhotates_left + 96)%Z) R8);
  In (Ilea (Arip (o_rhotates_right + 96)%Z) R9);
  In (Ilea (Ab RDI 96) RDI);
  In (Vpbroadcastq (Ab RDI (-96)) 0);
  In (Vmovdqu (Ab RDI (-88)) 1);
  In (Vmovdqu (Ab RDI (-56)) 2);
  In (Vmovdqu (Ab RDI (-24)) 3);
  In (Vmovdqu (Ab RDI 8) 4);
  In (Vmovdqu (Ab RDI 40) 5);
  In (Vmovdqu (Ab RDI 72) 6);
  Lb "KeccakF1600_FastLoop_Absorb_Loop17Lanes";
  In (Vpbroadcastq (Ab RDX 0) 7);
  In (Vmovdqu (Ab RDX 8) 8);
  In (Vmovdqa (Arip (o_mask2_17)%Z) 14);
  In (Vbin VXOR (Ym 9) 9 9);
  In (Vmovdqa_x (Arip (o_map2)%Z) 15);
  In (Vpgatherdq 14 RDX 15 9);
  In (Vmovdqa (Arip (o_mask3_17)%Z) 14);
  In (Vbin VXOR (Ym 10) 10 10);
  In (Vmovdqa_x (Arip (o_map3)%Z) 15);
  In (Vpgatherdq 14 RDX 15 10);
  In (Vmovdqa (Arip (o_mask4_17)%Z) 14);
  In (Vbin VXOR (Ym 11) 11 11);
  In (Vmovdqa_x (Arip (o_map4)%Z) 15);
  In (Vpgatherdq 14 RDX 15 11);
  In (Vmovdqa (Arip (o_mask5_17)%Z) 14);
  In (Vbin VXOR (Ym 12) 12 12);
  In (Vmovdqa_x (Arip (o_map5)%Z) 15);
  In (Vpgatherdq 14 RDX 15 12);
  In (Vmovdqa (Arip (o_mask6_17)%Z) 14);
  In (Vbin VXOR (Ym 13) 13 13);
  In (Vmovdqa_x (Arip (o_map6)%Z) 15);
  In (Vpgatherdq 14 RDX 15 13);
  In (Vbin VXOR (Ym 7) 0 0);
  In (Vbin VXOR (Ym 8) 1 1);
  In (Vbin VXOR (Ym 9) 2 2);
  In (Vbin VXOR (Ym 10) 3 3);
  In (Vbin VXOR (Ym 11) 4 4);
  In (Vbin VXOR (Ym 12) 5 5);
  In (Vbin VXOR (Ym 13) 6 6);
  In (Ibin ADD B8 (Im 136) (Rg RDX));
  In (Ilea (Arip (o_iotas)%Z) R10);
  In (Imov B4 (Im 24) (Rg RAX));
  In (Icall "__KeccakF1600");
  In (Ibin SUB B8 (Im 17) (Rg RCX));
  In (Ijcc CAE "KeccakF1600_FastLoop_Absorb_Loop17Lanes");
  In (Ijmp "KeccakF1600_FastLoop_Absorb_SaveAndExit");
  Lb "KeccakF1600_FastLoop_Absorb_Not17Lanes";
  In (Ilea (Arip (o_mapState)%Z) R9);
  In (Imov B8 (Rg RSI) (Rg RAX));
  Lb "KeccakF1600_FastLoop_Absorb_LanesAddLoop";
  In (Imov B8 (Me (Ab RDX 0)) (Rg R8));
  In (Ibin ADD B8 (Im 8) (Rg RDX));
  In (Imov B8 (Me (Ab R9 0)) (Rg R10));
  In (Ibin ADD B8 (Im 8) (Rg R9));
  In (Ibin ADD B8 (Rg RDI) (Rg R10));
  In (Ibin XOR B8 (Rg R8) (Me (Ab R10 0)));
  In (Ibin SUB B8 (Im 1) (Rg RAX));
  In (Ijcc CNZ "KeccakF1600_FastLoop_Absorb_LanesAddLoop");
  In (Ibin SUB B8 (Rg RSI) (Rg RCX));
  In (Ipush RDI);
  In (Ipush RSI);
  In (Ipush RDX);
  In (Ipush RCX);
  In (Icall "KeccakP1600_Permute_24rounds");
  In (Ipop RCX);
  In (Ipop RDX);
  In (Ipop RSI);
  In (Ipop RDI);
  In (Ibin CMP B8 (Rg RSI) (Rg RCX));
  In (Ijcc CAE "KeccakF1600_FastLoop_Absorb_Not17Lanes");
  In (Ijmp "KeccakF1600_FastLoop_Absorb_Exit")].
(** KeccakP1600_12rounds_FastLoop_Absorb, KeccakP-1600-AVX2.s:885-1048 *)
Definition code_KeccakP1600_12rounds_FastLoop_Absorb : list item := [
  Lb "KeccakP1600_12rounds_FastLoop_Absorb";
  In (Ipush RBX);
  In (Ipush R10);
  In (Ishr 3 RCX);
  In (Imov B8 (Rg RDX) (Rg RBX));
  In (Ibin CMP B8 (Rg RSI) (Rg RCX));
  In (Ijcc CB "KeccakP1600_12rounds_FastLoop_Absorb_Exit");
  In (Vzeroupper);
  In (Ibin CMP B8 (Im 21) (Rg RSI));
  In (Ijcc CNZ "KeccakP1600_12rounds_FastLoop_Absorb_Not21Lanes");
  In (Ibin SUB B8 (Im 21) (Rg RCX));
  In (Ilea (Arip (o_rhotates_left + 96)%Z) R8);
  In (Ilea (Arip (o_rhotates_right + 96)%Z) R9);
  In (Ilea (Ab RDI 96) RDI);
  In (Vpbroadcastq (Ab RDI (-96)) 0);
  In (Vmovdqu (Ab RDI (-88)) 1);
  In (Vmovdqu (Ab RDI (-56)) 2);
  In (Vmovdqu (Ab RDI (-24)) 3);
  In (Vmovdqu (Ab RDI 8) 4);
  In (Vmovdqu (Ab RDI 40) 5);
  In (Vmovdqu (Ab RDI 72) 6);
  Lb "KeccakP1600_12rounds_FastLoop_Absorb_Loop21Lanes";
  In (Vpbroadcastq (Ab RDX 0) 7);
  In (Vmovdqu (Ab RDX 8) 8);
  In (Vmovdqa_x (Arip (o_map2)%Z) 15);
  In (Vpcmpeqd_same 14 14);
  In (Vpgatherdq 14 RDX 15 9);
  In (Vmovdqa (Arip (o_mask3_21)%Z) 14);
  In (Vbin VXOR (Ym 10) 10 10);
  In (Vmovdqa_x (Arip (o_map3)%Z) 15);
  In (Vpgatherdq 14 RDX 15 10);
  In (Vmovdqa (Arip (o_mask4_21)%Z) 14);
  In (Vbin VXOR (Ym 11) 11 11);
  In (Vmovdqa_x (Arip (o_map4)%Z) 15);
  In (Vpgatherdq 14 RDX 15 11);
  In (Vmovdqa (Arip (o_mask5_21)%Z) 14);
  In (Vbin VXOR (Ym 12) 12 12);
  In (Vmovdqa_x (Arip (o_map5)%Z) 15);
  In (Vpgatherdq 14 RDX 15 12);
  In (Vmovdqa (Arip (o_mask6_21)%Z) 14);
  In (Vbin VXOR (Ym 13) 13 13);
  In (Vmovdqa_x (Arip (o_map6)%Z) 15);
  In (Vpgatherdq 14 RDX 15 13);
  In (Vbin VXOR (Ym 7) 0 0);
  In (Vbin VXOR (Ym 8) 1 1);
  In (Vbin VXOR (Ym 9) 2 2);
  In (Vbin VXOR (Ym 10) 3 3);
  In (Vbin VXOR (Ym 11) 4 4);
  In (Vbin VXOR (Ym 12) 5 5);
  In (Vbin VXOR (Ym 13) 6 6);
  In (Ibin ADD B8 (Im 168) (Rg RDX));
  In (Ilea (Arip (o_iotas + 384)%Z) R10);
  In (Imov B4 (Im 12) (Rg RAX));
  In (Icall "__KeccakF1600");
  In (Ibin SUB B8 (Im 21) (Rg RCX));
  In (Ijcc CAE "KeccakP1600_12rounds_FastLoop_Absorb_Loop21Lanes");
  Lb "KeccakP1600_12rounds_FastLoop_Absorb_SaveAndExit";
  In (Vmovq_st 0 (Ab RDI (-96)));
  In (Vmovdqu_st 1 (Ab RDI (-88)));
  In (Vmovdqu_st 2 (Ab RDI (-56)));
  In (Vmovdqu_st 3 (Ab RDI (-24)));
  In (Vmovdqu_st 4 (Ab RDI 8));
  In (Vmovdqu_st 5 (Ab RDI 40));
  In (Vmovdqu_st 6 (Ab RDI 72));
  Lb "KeccakP1600_12rounds_FastLoop_Absorb_Exit";
  In (Vzeroupper);
  In (Imov B8 (Rg RDX) (Rg RAX));
  In (Ibin SUB B8 (Rg RBX) (Rg RAX));
  In (Ipop R10);
  In (Ipop RBX);
  In (Iret);
  Lb "KeccakP1600_12rounds_FastLoop_Absorb_Not21Lanes";
  In (Ibin CMP B8 (Im 17) (Rg RSI));
  In (Ijcc CNZ "KeccakP1600_12rounds_FastLoop_Absorb_Not17Lanes");
  In (Ibin SUB B8 (Im 17) (Rg RCX));
  In (Ilea (Arip (o_rhotates_left + 96)%Z) R8);
  In (Ilea (Arip (o_rhotates_right + 96)%Z) R9);
  In (Ilea (Ab RDI 96) RDI);
  In (Vpbroadcastq (Ab RDI (-96)) 0);
  In (Vmovdqu (Ab RDI (-88)) 1);
  In (Vmovdqu (Ab RDI (-56)) 2);
  In (Vmovdqu (Ab RDI (-24)) 3);
  In (Vmovdqu (Ab RDI 8) 4);
  In (Vmovdqu (Ab RDI 40) 5);
  In (Vmovdqu (Ab RDI 72) 6);
  Lb "KeccakP1600_12rounds_FastLoop_Absorb_Loop17Lanes";
  In (Vpbroadcastq (Ab RDX 0) 7);
  In (Vmovdqu (Ab RDX 8) 8);
  In (Vmovdqa (Arip (o_mask2_17)%Z) 14);
  In (Vbin VXOR (Ym 9) 9 9);
  In (Vmovdqa_x (Arip (o_map2)%Z) 15);
  In (Vpgatherdq 14 RDX 15 9);
  In (Vmovdqa (Arip (o_mask3_17)%Z) 14);
  In (Vbin VXOR (Ym 10) 10 10);
  In (Vmovdqa_x (Arip (o_map3)%Z) 15);
  In (Vpgatherdq 14 RDX 15 10);
  In (Vmovdqa (Arip (o_mask4_17)%Z) 14);
  In (Vbin VXOR (Ym 11) 11 11);
  In (Vmovdqa_x (Arip (o_map4)%Z) 15);
  In (Vpgatherdq 14 RDX 15 11);
  In (Vmovdqa (Arip (o_mask5_17)%Z) 14);
  In (Vbin VXOR (Ym 12) 12 12);
  In (Vmovdqa_x (Arip (o_map5)%Z) 15);
  In (Vpgatherdq 14 RDX 15 12);
  In (Vmovdqa (Arip (o_mask6_17)%Z) 14);
  In (Vbin VXOR (Ym 13) 13 13);
  In (Vmovdqa_x (Arip (o_map6)%Z) 15);
  In (Vpgatherdq 14 RDX 15 13);
  In (Vbin VXOR (Ym 7) 0 0);
  In (Vbin VXOR (Ym 8) 1 1);
  In (Vbin VXOR (Ym 9) 2 2);
  In (Vbin VXOR (Ym 10) 3 3);
  In (Vbin VXOR (Ym 11) 4 4);
  In (Vbin VXOR (Ym 12) 5 5);
  In (Vbin VXOR (Ym 13) 6 6);
  In (Ibin ADD B8 (Im 136) (Rg RDX));
  In (Ilea (Arip (o_iotas + 384)%Z) R10);
  In (Imov B4 (Im 12) (Rg RAX));
  In (Icall "__KeccakF1600");
  In (Ibin SUB B8 (Im 17) (Rg RCX));
  In (Ijcc CAE "KeccakP1600_12rounds_FastLoop_Absorb_Loop17Lanes");
  In (Ijmp "KeccakP1600_12rounds_FastLoop_Absorb_SaveAndExit");
  Lb "KeccakP1600_12rounds_FastLoop_Absorb_Not17Lanes";
  In (Ilea (Arip (o_mapState)%Z) R9);
  In (Imov B8 (Rg RSI) (Rg RAX));
  Lb "KeccakP1600_12rounds_FastLoop_Absorb_LanesAddLoop";
  In (Imov B8 (Me (Ab RDX 0)) (Rg R8));
  In (Ibin ADD B8 (Im 8) (Rg RDX));
  In (Imov B8 (Me (Ab R9 0)) (Rg R10));
  In (Ibin ADD B8 (Im 8) (Rg R9));
  In (Ibin ADD B8 (Rg RDI) (Rg R10));
  In (Ibin XOR B8 (Rg R8) (Me (Ab R10 0)));
  In (Ibin SUB B8 (Im 1) (Rg RAX));
  In (Ijcc CNZ "KeccakP1600_12rounds_FastLoop_Absorb_LanesAddLoop");
  In (Ibin SUB B8 (Rg RSI) (Rg RCX));
  In (Ipush RDI);
  In (Ipush RSI);
  In (Ipush RDX);
  In (Ipush RCX);
  In (Icall "KeccakP1600_Permute_12rounds");
  In (Ipop RCX);
  In (Ipop RDX);
  In (Ipop RSI);
  In (Ipop RDI);
  In (Ibin CMP B8 (Rg RSI) (Rg RCX));
  In (Ijcc CAE "KeccakP1600_12rounds_FastLoop_Absorb_Not17Lanes");
  In (Ijmp "KeccakP1600_12rounds_FastLoop_Absorb_Exit")].
Definition code : list item := Eval cbv in (code_KeccakP1600_Initialize ++ code_KeccakP1600_AddByte ++ code_KeccakP1600_AddBytes ++ code_KeccakP1600_OverwriteBytes ++ code_KeccakP1600_OverwriteWithZeroes ++ code_KeccakP1600_ExtractBytes ++ code_KeccakP1600_ExtractAndAddBytes ++ code_KeccakF1600 ++ code_KeccakP1600_Permute_24rounds ++ code_KeccakP1600_Permute_12rounds ++ code_KeccakP1600_Permute_Nrounds ++ code_KeccakF1600_FastLoop_Absorb ++ code_KeccakP1600_12rounds_FastLoop_Absorb)%list.
