(** The hash interface of /repo/kdf_shake.h as used by the rest of the code.

    The extendable output function is an arbitrary function [H : oracle]: [H v m i] is the i-th output byte on input m,
    for SHAKE128 (v = true) or SHAKE256 (v = false).  Every theorem about signing, verification, trees and tapes holds
    for all H.  That the sponge code computes such a function (whatever the splitting into update and squeeze calls) is
    proved separately about the model of KeccakSponge.inc. *)
From Coq Require Import Arith NArith List Bool Lia.
From Verif Require Import Prelude.
Import ListNotations.

Definition oracle := bool -> bytes -> nat -> N.
(** output bytes off, ..., off+len-1; [mod 256] because H is an arbitrary function to numbers *)
Definition stream (H : oracle) (v : bool) (m : bytes) (off len : nat) : bytes :=
  map (fun i => (H v m i mod 256)%N) (seq off len).

(** hash_context, kdf_shake.h:40: variant, bytes absorbed so far, and after hash_final the number of bytes squeezed so far *)
Record hctx : Type := mkCtx { h_v : bool; h_in : bytes; h_off : option nat }.
(** hash_init, kdf_shake.h:46-52 *)
Definition hash_init (digest_size : nat) : hctx := mkCtx (digest_size =? 32) [] None.
(** hash_update, kdf_shake.h:54-57; after hash_final the sponge refuses input (KeccakSponge.inc:158-159) and the result is ignored *)
Definition hash_update (c : hctx) (d : bytes) : hctx :=
  match h_off c with None => mkCtx (h_v c) (h_in c ++ d) None | Some _ => c end.
(** hash_update_uint16_le, kdf_shake.h:70-73; the caller's argument is converted to uint16_t *)
Definition le16 (x : nat) : bytes := le_bytes 2 (N.of_nat x mod 65536)%N.
Definition hash_update_u16 (c : hctx) (x : nat) : hctx := hash_update c (le16 x).
(** hash_init_prefix, kdf_shake.h:75-79 *)
Definition hash_init_prefix (digest_size : nat) (prefix : N) : hctx := hash_update (hash_init digest_size) [prefix].
(** hash_final, kdf_shake.h:59-61 *)
Definition hash_final (c : hctx) : hctx := mkCtx (h_v c) (h_in c) (match h_off c with None => Some 0 | o => o end).
(** hash_squeeze, kdf_shake.h:63-66.  Simplification: without hash_final the sponge pads the input in another way than SHAKE
    does; here the output is then all zero, whatever H is.  The code always calls hash_final first. *)
Definition hash_squeeze (H : oracle) (c : hctx) (len : nat) : bytes * hctx :=
  match h_off c with
  | Some off => (stream H (h_v c) (h_in c) off len, mkCtx (h_v c) (h_in c) (Some (off + len)))
  | None => (zeros len, mkCtx (h_v c) (h_in c) (Some len))
  end.

(** hash_context_x4, kdf_shake.h:98: four contexts of the same variant working in lock step *)
Definition hctx4 := list hctx.
(** hash_init_x4, kdf_shake.h:100-106 *)
Definition hash_init_x4 (digest_size : nat) : hctx4 := repeat (hash_init digest_size) 4.
(** hash_update_x4, hash_update_x4_4, kdf_shake.h:108-118 *)
Definition hash_update_x4_4 (c : hctx4) (ds : list bytes) : hctx4 := map (fun p => hash_update (fst p) (snd p)) (combine c ds).
(** hash_update_x4_1, kdf_shake.h:120-124 *)
Definition hash_update_x4_1 (c : hctx4) (d : bytes) : hctx4 := hash_update_x4_4 c [d; d; d; d].
(** hash_init_prefix_x4, kdf_shake.h:126-130 *)
Definition hash_init_prefix_x4 (digest_size : nat) (prefix : N) : hctx4 := hash_update_x4_1 (hash_init_x4 digest_size) [prefix].
(** hash_update_x4_uint16_le, kdf_shake.h:149-153 *)
Definition hash_update_x4_u16 (c : hctx4) (x : nat) : hctx4 := hash_update_x4_1 c (le16 x).
(** hash_update_x4_uint16s_le, kdf_shake.h:155-164, on four consecutive indices *)
Definition hash_update_x4_u16s (c : hctx4) (x : nat) : hctx4 :=
  hash_update_x4_4 c [le16 x; le16 (x + 1); le16 (x + 2); le16 (x + 3)].
(** hash_final_x4, kdf_shake.h:132-134 *)
Definition hash_final_x4 (c : hctx4) : hctx4 := map hash_final c.
(** hash_squeeze_x4, hash_squeeze_x4_4, kdf_shake.h:136-146; the four output strings *)
Definition hash_squeeze_x4 (H : oracle) (c : hctx4) (len : nat) : list bytes * hctx4 :=
  (map (fun c => fst (hash_squeeze H c len)) c, map (fun c => snd (hash_squeeze H c len)) c).

(** ** Lemmas *)
Lemma stream_length H v m o n : length (stream H v m o n) = n.
Proof. unfold stream. rewrite map_length, seq_length. reflexivity. Qed.
Lemma stream_bytes H v m o n : is_bytes (stream H v m o n).
Proof. apply Forall_map, Forall_forall. intros i _. apply N.mod_lt. discriminate. Qed.
Lemma stream_app H v m o n k : stream H v m o (n + k) = stream H v m o n ++ stream H v m (o + n) k.
Proof. unfold stream. rewrite seq_app, map_app. reflexivity. Qed.
Lemma squeeze_shape H c n b c' : hash_squeeze H c n = (b, c') -> length b = n /\ is_bytes b.
Proof.
  unfold hash_squeeze. destruct (h_off c); intros E; injection E as <- _; (split; [|]).
  - apply stream_length.
  - apply stream_bytes.
  - apply repeat_length.
  - apply Forall_forall. intros x Hx. apply repeat_spec in Hx. subst x. reflexivity.
Qed.
Lemma le16_length x : length (le16 x) = 2%nat.
Proof. reflexivity. Qed.
Lemma le16_bytes x : is_bytes (le16 x).
Proof. apply le_bytes_is_bytes. Qed.
Lemma le16_inj x y : (N.of_nat x < 65536)%N -> (N.of_nat y < 65536)%N -> le16 x = le16 y -> x = y.
Proof.
  intros Hx Hy E. unfold le16 in E. apply (f_equal le_word) in E.
  rewrite !N.mod_small in E by assumption. rewrite !le_word_bytes in E by assumption. lia.
Qed.
