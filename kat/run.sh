#!/bin/sh
# Compares the model with the known-answer test of the repository (tests/banquet_test.cpp:63-1166), by extraction to OCaml.
# Not part of the proofs.  Needs the compiled theories (make in /verif/rocq), coqc and ocamlopt; takes about 8 minutes.
set -e
here=$(cd "$(dirname "$0")" && pwd); work=$(mktemp -d); cd "$work"
python3 - <<'P'
import re
s = open('/repo/tests/banquet_test.cpp').read()
i = s.index('Banquet_L1_Param1_signature'); k = s.index('{', i); j = s.index('};', i)
open('kat.ml', 'w').write('let expected = [' + ';'.join(re.findall(r'\d+', s[k:j])) + ']\n')
P
cat > katlib.ml <<'M'
(* SHAKE over the extracted permutation, with the outputs remembered; replaces [stream] of HashModel in the run *)
open Keccak
let rec pos_of n = if n = 1 then XH else if n land 1 = 1 then XI (pos_of (n lsr 1)) else XO (pos_of (n lsr 1))
let n_of i = if i = 0 then N0 else Npos (pos_of i)
let rec int_of_pos = function XH -> 1 | XO p -> 2 * int_of_pos p | XI p -> 2 * int_of_pos p + 1
let int_of = function N0 -> 0 | Npos p -> int_of_pos p
let count = ref 0
let permute st = incr count; Array.of_list (List.map int_of (permute_24rounds (List.map n_of (Array.to_list st))))
let absorb rate m =
  let st = ref (Array.make 200 0) in
  let a = Array.of_list m in let n = Array.length a in
  let blocks = n / rate in
  for b = 0 to blocks - 1 do
    for i = 0 to rate - 1 do !st.(i) <- !st.(i) lxor a.(b*rate+i) done; st := permute !st done;
  let r = n - blocks*rate in
  for i = 0 to r - 1 do !st.(i) <- !st.(i) lxor a.(blocks*rate+i) done;
  !st.(r) <- !st.(r) lxor 0x1f; !st.(rate-1) <- !st.(rate-1) lxor 0x80; permute !st
let key v m = (v, Digest.string (String.init (List.length m) (let a = Array.of_list m in fun i -> Char.chr a.(i))))
let tbl = Hashtbl.create 10007
let stream v m off len =
  let m = List.map int_of m in
  let rate = if v then 168 else 136 in
  let k = key v m in
  let st, buf = try Hashtbl.find tbl k with Not_found ->
    let st = absorb rate m in let b = Buffer.create 200 in
    for i = 0 to rate-1 do Buffer.add_char b (Char.chr st.(i)) done;
    let e = (ref st, b) in Hashtbl.add tbl k e; e in
  while Buffer.length buf < off + len do
    st := permute !st; for i = 0 to rate-1 do Buffer.add_char buf (Char.chr !st.(i)) done done;
  List.init len (fun i -> n_of (Char.code (Buffer.nth buf (off+i))))
M
cat > main.ml <<'M'
(* tests/banquet_test.cpp:1133-1166 on the extracted model: sign, serialize, compare; deserialize the expected bytes, verify *)
open Model
let no i = (Obj.magic (Katlib.n_of i) : n)
let io (x : n) = Katlib.int_of (Obj.magic x)
let () =
  let inst = List.nth instances 1 in
  let b l = List.map no l in
  let key = b (List.init 16 (fun _ -> 0xff)) in
  let pt = b [1;1;1;1;0;0;0;0;0;0;0;0;0;0;0;0] in
  let ct = b [0x0b;0x5a;0x81;0x4d;0x95;0x60;0x1c;0xc7;0xef;0xe7;0x12;0x28;0x3e;0x05;0xef;0x8f] in
  let msg = b (List.map Char.code (List.of_seq (String.to_seq "TestMessage"))) in
  let h = fun _ _ _ -> N0 in
  let garb = fun _ -> no 0xA5 in
  let fuel = 1000000 in
  match sign h fuel garb None inst (key, pt @ ct) msg with
  | st, Ok sg ->
    (match serialize st inst sg with
     | Ok ser -> let ser = List.map io ser in
       Printf.printf "length %d equal %b perms %d\n%!" (List.length ser) (ser = Kat.expected) !Katlib.count;
       List.iteri (fun i (x,y) -> if x<>y && i < 200 then Printf.printf "diff at %d: %d %d\n" i x y) (List.combine ser Kat.expected)
     | _ -> print_endline "serialize failed");
    (match deserialize h fuel garb st inst (b Kat.expected) with
     | Ok s2 -> (match verify h fuel garb st inst (pt @ ct) s2 msg with
        | _, Ok r -> Printf.printf "verify %b\n" r | _ -> print_endline "verify not ok")
     | _ -> print_endline "deserialize not ok")
  | _, Throw _ -> print_endline "throw" | _, UB _ -> print_endline "ub" | _, OutOfFuel -> print_endline "fuel"
M
cat > ex1.v <<'V'
From Coq Require Import Extraction ExtrOcamlBasic ExtrOcamlNatInt.
From Verif Require Import KeccakModel.
Extraction "keccak.ml" permute_24rounds.
V
cat > ex2.v <<'V'
From Coq Require Import Extraction ExtrOcamlBasic ExtrOcamlNatInt.
From Verif Require Import Prelude HashModel Instances BanquetModel.
Extract Constant stream => "(fun _ v m off len -> Obj.magic (Katlib.stream v (Obj.magic m) off len))".
Extraction "model.ml" sign verify serialize deserialize instances.
V
coqc -R "$here/../rocq/theories" Verif ex1.v; coqc -R "$here/../rocq/theories" Verif ex2.v
ocamlopt -w -a -O3 keccak.mli keccak.ml katlib.ml model.mli model.ml kat.ml main.ml -o kat
ulimit -s unlimited; ./kat
