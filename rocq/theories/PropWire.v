(** Property theorems about the bytes of a serialized signature (C70).
    [wire I sig ser] (WireSpec.v) is the table of offsets: which bytes of ser hold which component of sig.
    [st_init None (lambda I) = (st, Ok tt)]: st is the state a process is in once it has signed or verified with a
    parameter set of that lambda.  [sig_shape I sig]: every member has the size the parameter set prescribes.
    [hidden_of H I sig e]: the party that h_3 leaves closed in repetition e. *)
From Coq Require Import Arith NArith ZArith List Bool Lia.
From Verif Require Import Prelude FieldModel Instances HashModel TreeModel BanquetModel BanquetPure BanquetVerify Serialize BanquetApi SigSpec SignFacts SerialFacts PropSign PropSerial FreeSpec WireSpec WireFacts.
Import ListNotations.

(** C70, writing: banquet_serialize_signature returns a string exactly if it has the layout of the table. *)
Theorem C70_serialize : forall I st sig, regular I -> st_init None (lambda I) = (st, Ok tt) -> sig_shape I sig ->
  forall ser, serialize st I sig = Ok ser <-> wire I sig ser.
Proof. exact api_wire. Qed.
Print Assumptions C70_serialize.

(** C70, reading: of a string with at least the prescribed number of bytes, banquet_deserialize_signature returns exactly
    the signature whose components are at the table's offsets, with the closed parties that h_3 determines. *)
Theorem C70_deserialize : forall H fuel garb I st ser sig, regular I -> st_init None (lambda I) = (st, Ok tt) -> 1 <= fuel -> is_bytes ser ->
  rep_start I (num_rounds I) <= length ser ->
  (deserialize H fuel garb st I ser = Ok sig <->
   wire I sig (firstn (rep_start I (num_rounds I)) ser) /\ forall e p, nth_error (s_proofs sig) e = Some p -> snd (p_reveal p) = hidden_of H I sig e).
Proof. exact api_wire_back. Qed.
Print Assumptions C70_deserialize.

(** C70 for signatures: what banquet_sign returns is written in this layout. *)
Theorem C70_signatures : forall H I kf r kp msg fuel garb st st' sig, regular I -> rng_bytes r -> keygen kf I r = Ok kp ->
  sign H fuel garb st I kp msg = (st', Ok sig) -> forall ser, serialize st' I sig = Ok ser <-> wire I sig ser.
Proof.
  intros H I kf r kp msg fuel garb st st' sig HB HR EK ES ser. destruct (key_cases I kf r kp HB HR EK) as (c & key & pt & ct & OK & -> & Hk & Hp & Hct).
  destruct (sign_shape H I c (nk_of I) OK key pt ct Hk Hp Hct fuel garb st msg sig st' ES) as (-> & SS & _).
  apply api_wire; [exact HB| |exact SS]. unfold st_init. rewrite (io_field _ _ _ OK). reflexivity.
Qed.
Print Assumptions C70_signatures.

(** Cases: a string of 255s is the serialization of a signature of parameter set 1; where P(R) of its
    repetition 30 is found. *)
Example C70_case : regular I1 /\ exists st sig, st_init None (lambda I1) = (st, Ok tt) /\ sig_shape I1 sig /\ is_bytes s255 /\
  rep_start I1 (num_rounds I1) = length s255 /\ serialize st I1 sig = Ok s255 /\ deserialize ones 1 (fun _ => 0%N) st I1 s255 = Ok sig /\
  exists p, nth_error (s_proofs sig) 30 = Some p /\ p_P_at_R p = 4294967295%N /\ number_at s255 (rep_start I1 30 + 6 * 16 + 32 + 16 + 200 + 21 * 4) 4 4294967295.
Proof.
  assert (B : regular I1) by (apply builtin_regular; exists 1%Z; reflexivity).
  assert (Y : is_bytes s255) by (apply Forall_forall; intros x Hx; apply repeat_spec in Hx; subst x; reflexivity).
  split; [exact B|]. destruct (st_init None (lambda I1)) as [st r] eqn:Est. assert (r = Ok tt) as -> by (vm_compute in Est; congruence).
  destruct (api_canonical ones 1 (fun _ => 0%N) I1 st s255 B Est (le_n 1) Y (repeat_length _ _)) as (sig & S1 & S2).
  assert (R : rep_start I1 (num_rounds I1) = length s255) by (vm_compute; reflexivity).
  destruct (proj1 (api_wire_back ones 1 (fun _ => 0%N) I1 st s255 sig B Est (le_n 1) Y ltac:(rewrite R; apply le_n)) S1) as [W _]. rewrite R, firstn_all in W.
  assert (SS : sig_shape I1 sig). { destruct (regular_inst_ok I1 B) as [c OK]. exact (wire_shape I1 c B (io_field _ _ _ OK) sig s255 Y W). }
  exists st, sig. split; [reflexivity|]. do 5 (split; [assumption|]). destruct (nth_error (s_proofs sig) 30) as [p|] eqn:Ep.
  - exists p. split; [reflexivity|]. pose proof (ra_P _ _ _ _ (wi_rep _ _ _ W 30 p Ep)) as Z.
    assert (EP : p_P_at_R p = 4294967295%N).
    { destruct Z as [Z1 Z2]. destruct (regular_inst_ok I1 B) as [c OK].
      assert (Q : from_bytes (to_bytes 4 (p_P_at_R p)) = p_P_at_R p) by (apply (proj1 (FieldApi.api_bytes _ _ (io_field _ _ _ OK))); exact Z1).
      rewrite <- Q. replace (to_bytes 4 (p_P_at_R p)) with [255; 255; 255; 255]%N; [reflexivity|].
      assert (N4 : (number_at s255 (rep_start I1 30 + Nat.log2_up (num_parties I1) * seed_size I1 + digest_size I1 + key_size (i_aes I1) + num_sboxes (i_aes I1) + (m2 I1 + 1) * lambda I1) (lambda I1) (p_P_at_R p))) by (split; assumption).
      apply (number_string I1 c B (io_field _ _ _ OK)) in N4. destruct N4 as [_ N4]. pose proof (slice_of_string _ _ _ _ N4) as N5. change (lambda I1) with 4 in N5. rewrite <- N5. vm_compute. reflexivity. }
    split; [exact EP|]. rewrite EP in Z. exact Z.
  - exfalso. apply nth_error_None in Ep. rewrite (ss_len _ _ SS) in Ep. vm_compute in Ep. lia.
Qed.
