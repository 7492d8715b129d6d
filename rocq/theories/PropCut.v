(** Property theorems about calls that are cut off (C66).  [cut_off impl past m]: the static members after the calls of [past], each
    cut off after the given number of accesses, from the contents m; [thread impl xs]: a program making the calls xs. *)
From Coq Require Import Arith NArith ZArith List Bool Lia.
From Verif Require Import Prelude FieldModel Instances HashModel BanquetModel History ThreadModel ThreadFacts ThreadApi FreeSpec CutModel CutFacts PropSign.
Import ListNotations.

(** Whatever calls were cut off, and wherever: calls from the next sign or verify on answer as in a fresh process. *)
Theorem C66_sign_and_verify : forall H impl, implements H impl -> forall past m x xs, match x with CSign _ _ J _ _ | CVerify _ _ J _ _ _ => regular J | _ => False end ->
  exists n m', exec (repeat 0 n) ([thread impl (x :: xs)], cut_off impl past m) = ([Done (answers H None (x :: xs))], m').
Proof.
  intros H impl HI past m x xs HX. apply cut_anywhere; [exact HI|].
  destruct x; try contradiction; apply regular_field, HX.
Qed.
Print Assumptions C66_sign_and_verify.
(** If the calls are cut off after the field was initialised, which is when sign and verify begin to allocate memory, then all
    later calls, serialize and deserialize included, answer as if the calls had returned. *)
Theorem C66_exceptions : forall H impl, implements H impl -> exists k, k <= 600 /\ forall st past xs, reachable st -> Forall (fun xn => k <= snd xn) past ->
  exists n m', exec (repeat 0 n) ([thread impl xs], cut_off impl past (mem_of st)) = ([Done (answers H (fold_left (step H) (map fst past) st) xs)], m').
Proof. exact cut_later. Qed.
Print Assumptions C66_exceptions.

(** Cases: a verification with parameter set 1 cut off after four accesses, while the tables of the field are being filled in;
    signing then returns the usual signature. *)
Example C66_case : implements ones (looks_once ones) /\ exists kp sig, let past := [(CVerify 1 (fun _ => 0%N) I1 (snd kp) sig [1%N], 4)] in
  cut_off (looks_once ones) past (mem_of None) (Llut 0) = 0%N /\ cut_off (looks_once ones) past (mem_of None) (Llut 1) = 0%N /\ cut_off (looks_once ones) past (mem_of None) Lsize = N.of_nat (lambda I1) /\
  hd_error (answers ones None [CSign 1 (fun _ => 0%N) I1 kp [1%N]; CSerialize I1 sig]) = Some (Ok (ASignature sig)).
Proof.
  split; [apply looks_once_ok|]. destruct C01_case as (HB & HR & kp & Hk & Hs). destruct (Hs (fun _ => 0%N) None [1%N]) as [sig Hsig]. exists kp, sig. cbn zeta.
  split; [reflexivity|]. split; [reflexivity|]. split; [reflexivity|]. cbn [answers answer_of hd_error]. rewrite Hsig. reflexivity.
Qed.
