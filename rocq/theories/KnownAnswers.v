(** The literal answers of the repository's own tests (tests/aes_test.cpp, field_test.cpp, util_test.cpp), computed by the
    model.  These are checks that the model is the code, not proofs of properties: each property is proved for all inputs in
    the Prop files.  The largest test, the complete signature of tests/banquet_test.cpp, is described in DESIGN.md. *)
From Coq Require Import Arith NArith ZArith List Bool.
From Verif Require Import Prelude AesModel FieldModel.
Import ListNotations.
Local Open Scope N_scope.

(** tests/aes_test.cpp:6-21 *)
Example kat_aes_128 : aes_128 (repeat 0xff 16) [1; 1; 1; 1; 0; 0; 0; 0; 0; 0; 0; 0; 0; 0; 0; 0] =
  Some [0x0b; 0x5a; 0x81; 0x4d; 0x95; 0x60; 0x1c; 0xc7; 0xef; 0xe7; 0x12; 0x28; 0x3e; 0x05; 0xef; 0x8f].
Proof. vm_compute. reflexivity. Qed.
(** tests/aes_test.cpp:23-43 *)
Example kat_aes_192 :
  let p := [2; 2; 2; 2; 0; 0; 0; 0; 0; 0; 0; 0; 0; 0; 0; 0] in
  let c := [0x15; 0xc5; 0x99; 0x50; 0xf7; 0x9f; 0x74; 0x21; 0x4b; 0xc8; 0xfc; 0x50; 0x7c; 0x5f; 0x9b; 0xa6] in
  aes_192 (repeat 0xff 24) (p ++ p) = Some (c ++ c).
Proof. vm_compute. reflexivity. Qed.
(** tests/aes_test.cpp:45-67 *)
Example kat_aes_256 :
  let p := [1; 1; 1; 1; 0; 0; 0; 0; 0; 0; 0; 0; 0; 0; 0; 0] in
  let c := [0x0b; 0x5c; 0xe5; 0x2a; 0x5c; 0xfc; 0x30; 0x02; 0x19; 0x22; 0x26; 0x92; 0x07; 0xb7; 0xd9; 0x66] in
  aes_256 (repeat 0xff 32) (p ++ p) = Some (c ++ c).
Proof. vm_compute. reflexivity. Qed.
(** tests/aes_test.cpp:69-90, the recording variant: the same ciphertext, 200 inputs and 200 outputs *)
Example kat_aes_128_saved :
  let r := aes_128_with_sbox_output (repeat 0xff 16) [1; 1; 1; 1; 0; 0; 0; 0; 0; 0; 0; 0; 0; 0; 0; 0] in
  snd r = Some [0x0b; 0x5a; 0x81; 0x4d; 0x95; 0x60; 0x1c; 0xc7; 0xef; 0xe7; 0x12; 0x28; 0x3e; 0x05; 0xef; 0x8f] /\
  (length (fst (fst r)) = 200 /\ length (snd (fst r)) = 200)%nat.
Proof. vm_compute. repeat split. Qed.

(** tests/field_test.cpp:33-71: GF(2^32) *)
Example kat_field_32 :
  set_coeffs [31; 29; 28; 24; 23; 21; 19; 15; 14; 9; 8; 0] = 2980627201 /\
  set_coeffs [29; 27; 26; 25; 20; 17; 14; 11; 10; 5; 3; 2] = 772951084 /\
  gmul ctx32 2980627201 772951084 = 3895706975 /\
  gmul ctx32 2980627201 2980627201 = 2846443116 /\ gmul ctx32 772951084 772951084 = 234130046.
Proof. vm_compute. repeat split. Qed.
(** tests/field_test.cpp:73-83: GF(2^40) *)
Example kat_field_40 :
  gmul ctx40 683080732428 437065243549 = 916833885315 /\
  gmul ctx40 683080732428 683080732428 = 224904587486 /\ gmul ctx40 437065243549 437065243549 = 153370336291.
Proof. vm_compute. repeat split. Qed.
(** tests/field_test.cpp:85-95: GF(2^48) *)
Example kat_field_48 :
  gmul ctx48 94834555057164 119504161027501 = 130190305526807 /\
  gmul ctx48 94834555057164 94834555057164 = 187414204277907 /\ gmul ctx48 119504161027501 119504161027501 = 119412372920018.
Proof. vm_compute. repeat split. Qed.
(** tests/field_test.cpp:210-240: the inverse, in the three fields *)
Example kat_inverse :
  map (fun c => match ginverse c 2980627201 with Ok b => gmul c 2980627201 b | _ => 0 end) [ctx32; ctx40; ctx48] = [1; 1; 1].
Proof. vm_compute. reflexivity. Qed.
(** tests/util_test.cpp:36-90: lifting of 3 and 246 *)
Example kat_lift :
  lift ctx32 3 = set_coeffs [30; 23; 21; 18; 14; 13; 11; 9; 7; 6; 5; 4; 3; 1; 0] /\
  lift ctx32 246 = set_coeffs [30; 29; 27; 26; 25; 19; 18; 17; 14; 13; 12; 10; 8; 7; 4; 2; 1] /\
  gmul ctx32 (lift ctx32 3) (lift ctx32 246) = 1.
Proof. vm_compute. repeat split. Qed.
