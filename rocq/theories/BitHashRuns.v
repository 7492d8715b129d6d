(** Sequences of calls of the hash library, the one-shot function, four at a time *)
From Coq Require Import Arith NArith List Bool Lia.
From Verif Require Import Prelude SpongeModel SpongeSpec SpongeFacts SpongeApi Sponge4Facts BitHashModel BitHashSpec BitHashFacts BitHashApi.
Import ListNotations.

Ltac pos :=
  repeat match goal with
  | H : context [(?a / ?b)%N] |- _ => lazymatch goal with _ : (0 <= a / b)%N |- _ => fail | _ => pose proof (N.le_0_l (a / b)) end
  | |- context [(?a / ?b)%N] => lazymatch goal with _ : (0 <= a / b)%N |- _ => fail | _ => pose proof (N.le_0_l (a / b)) end
  end; lia.
Definition call_size (c : call) : nat := match c with Update _ n => N.to_nat (n / 8) | Final => 0 | Squeeze q => N.to_nat (q / 8) end.
Definition calls_size (cs : list call) : nat := list_sum (map call_size cs).
Lemma size_cons c cs : calls_size (c :: cs) = call_size c + calls_size cs.
Proof. reflexivity. Qed.
Lemma message_nil : message [] = [].
Proof. reflexivity. Qed.
Lemma message_cons u ups : message (u :: ups) = firstn (N.to_nat (snd u)) (bits_of (fst u)) ++ message ups.
Proof. reflexivity. Qed.
Lemma message_app a b : message (a ++ b) = message a ++ message b.
Proof. unfold message. rewrite map_app, concat_app. reflexivity. Qed.

Lemma init_ok rate capacity hashbitlen suffix : (capacity < 2 ^ 32)%N -> (suffix < 256)%N -> sound rate capacity suffix ->
  exists k, kb_init rate capacity hashbitlen suffix = Some k /\ kh_fixed k = N.to_nat hashbitlen /\
    1 <= N.to_nat (rate / 8) <= 200 /\ forall f, whole f (N.to_nat (rate / 8)) k [] suffix.
Proof.
  intros C S (A & B & D & E). unfold kb_init. destruct (N.eqb_spec suffix 0); [contradiction|].
  rewrite (proj2 (bad_iff rate capacity C)) by auto. eexists. split; [reflexivity|]. split; [reflexivity|].
  assert (R : rate = (8 * (rate / 8))%N) by (pose proof (N.div_mod rate 8 ltac:(discriminate)); pos).
  revert R. generalize (rate / 8)%N. intros r R. split; [pos|]. intros f.
  split; [constructor|]. split; [pos|]. split; [reflexivity|]. split; [|split; reflexivity].
  cbn [kh_sponge sp_rate]. pos.
Qed.
Lemma init_fails rate capacity hashbitlen suffix : (capacity < 2 ^ 32)%N -> ~ sound rate capacity suffix ->
  kb_init rate capacity hashbitlen suffix = None /\ kb_init4 rate capacity hashbitlen suffix = None.
Proof.
  intros C N. unfold kb_init, kb_init4. destruct (N.eqb_spec suffix 0); [auto|].
  destruct (bad_rate rate capacity) eqn:B; [auto|]. exfalso. apply N. apply (bad_iff _ _ C) in B. unfold sound. tauto.
Qed.

Section Run.
Variable f : bytes -> bytes.
Hypothesis f_len : forall st : bytes, length st = 200 -> length (f st) = 200.
Section Rate.
Variable rb : nat.
Hypothesis rb_pos : 1 <= rb.
Hypothesis rb_200 : rb <= 200.

Lemma updates_run fuel s : forall ups k m, whole f rb k m s -> Forall fits ups -> Forall whole_bytes ups ->
  calls_size (map update ups) + 5 <= fuel ->
  exists k' m', (forall cs, kb_calls f fuel k (map update ups ++ cs) =
      (do l <- kb_calls f fuel k' cs; Ok (map (fun _ => (Success, [])) ups ++ l))) /\
    whole f rb k' m' s /\ kh_fixed k' = kh_fixed k /\ bits_of m' = bits_of m ++ message ups.
Proof.
  induction ups as [|u ups IH]; intros k m W FT WB F.
  - exists k, m. split; [|rewrite message_nil, app_nil_r; auto]. intros cs. cbn [map app].
    destruct (kb_calls f fuel k cs); reflexivity.
  - inversion FT as [|x y (B & L & S) FT']; inversion WB as [|x' y' Z WB']; subst.
    cbn [map] in F. rewrite size_cons in F. cbn [call_size update] in F.
    destruct (update_whole f f_len rb rb_pos rb_200 fuel k m s (fst u) (snd u) W B Z L S ltac:(pos)) as (k1 & m1 & E & W1 & X1 & M1).
    destruct (IH k1 m1 W1 FT' WB' ltac:(pos)) as (k2 & m2 & E2 & W2 & X2 & M2).
    exists k2, m2. split; [|split; [exact W2|split; [congruence|]]].
    + intros cs. cbn [map app kb_calls kb_call update]. rewrite E. cbn [bind]. rewrite E2.
      destruct (kb_calls f fuel k2 cs); reflexivity.
    + rewrite M2, M1, message_cons, <- app_assoc. reflexivity.
Qed.
Lemma one_update fuel k m s u : whole f rb k m s -> fits u -> call_size (update u) + 5 <= fuel ->
  exists k' m' s', kb_update f fuel k (fst u) (snd u) = Ok (Success, k') /\ whole f rb k' m' s' /\ kh_fixed k' = kh_fixed k /\
    bits_of m' ++ suffix_bits s' = bits_of m ++ firstn (N.to_nat (snd u)) (bits_of (fst u)) ++ suffix_bits s.
Proof.
  intros W (B & L & S) F. unfold call_size, update in F. cbn in F. destruct (N.eq_dec (snd u mod 8) 0) as [Z|Z].
  - destruct (update_whole f f_len rb rb_pos rb_200 fuel k m s (fst u) (snd u) W B Z L S ltac:(pos)) as (k1 & m1 & E & W1 & X1 & M1).
    exists k1, m1, s. repeat split; auto; try apply W1. rewrite M1, <- app_assoc. reflexivity.
  - destruct (update_bits f f_len rb rb_pos rb_200 fuel k m s (fst u) (snd u) W B Z L S ltac:(pos)) as (k1 & m1 & s1 & E & W1 & X1 & M1).
    exists k1, m1, s1. auto.
Qed.
Lemma answers_run fuel n : forall cs k off, drained f rb k n off -> Forall modest cs -> calls_size cs + 5 <= fuel ->
  kb_calls f fuel k cs = Ok (answers (keccak_byte f rb n) off cs).
Proof.
  induction cs as [|c cs IH]; intros k off D M F; [reflexivity|]. inversion M as [|x y M1 M2]; subst.
  rewrite size_cons in F.
  cbn [kb_calls]. destruct c as [d q| |q]; cbn [kb_call answers call_size] in *.
  - rewrite (late_update' f rb fuel k n off d q D). cbn [bind]. rewrite (IH k off D M2 ltac:(pos)). reflexivity.
  - rewrite (late_final' f rb fuel k n off D). cbn [bind]. rewrite (IH k off D M2 ltac:(pos)). reflexivity.
  - destruct (N.eqb_spec (q mod 8) 0) as [Z|Z].
    + destruct (squeeze_call f f_len rb rb_pos rb_200 fuel k n off q D Z M1 ltac:(pos)) as (k1 & E & D1). rewrite E. cbn [bind].
      rewrite (IH k1 _ D1 M2 ltac:(pos)). reflexivity.
    + rewrite odd_squeeze by assumption. cbn [bind]. rewrite (IH k off D M2 ltac:(pos)). reflexivity.
Qed.
End Rate.

Lemma message_run rate capacity hashbitlen suffix ups u cs : (capacity < 2 ^ 32)%N -> (suffix < 256)%N -> sound rate capacity suffix ->
  (hashbitlen / 8 + 200 <= 2 ^ 32)%N -> Forall fits (ups ++ [u]) -> Forall whole_bytes ups -> Forall modest cs ->
  exists k, kb_init rate capacity hashbitlen suffix = Some k /\
  exists fuel0, forall fuel, fuel0 <= fuel ->
    let g := keccak_byte f (N.to_nat (rate / 8)) (message (ups ++ [u]) ++ suffix_bits suffix) in let n := N.to_nat (hashbitlen / 8) in
    kb_calls f fuel k (map update (ups ++ [u]) ++ Final :: cs) =
    Ok (map (fun _ => (Success, [])) (ups ++ [u]) ++ (Success, outputs g 0 n) :: answers g n cs).
Proof.
  intros C S V HB FT WB M. destruct (init_ok rate capacity hashbitlen suffix C S V) as (k & E & KF & [R1 R2] & W). exists k. split; [exact E|].
  exists (calls_size (map update ups) + call_size (update u) + N.to_nat (hashbitlen / 8) + calls_size cs + 5). intros fuel F. cbv zeta.
  apply Forall_app in FT. destruct FT as [FT1 FT2]. inversion FT2 as [|x y FU _]; subst.
  destruct (updates_run _ R1 R2 fuel suffix ups k [] (W f) FT1 WB ltac:(pos)) as (k1 & m1 & E1 & W1 & X1 & M1).
  destruct (one_update _ R1 R2 fuel k1 m1 suffix u W1 FU ltac:(pos)) as (k2 & m2 & s2 & E2 & W2 & X2 & M2).
  assert (FX : kh_fixed k2 / 8 = N.to_nat (hashbitlen / 8)) by (rewrite X2, X1, KF; apply div8).
  destruct (final_ok' f f_len _ R1 R2 fuel k2 m2 s2 W2) as (k3 & E3 & D3).
  { rewrite FX. unfold small. pos. } { rewrite FX. pos. }
  rewrite FX in E3, D3. rewrite map_app, <- app_assoc, E1. cbn [map app kb_calls kb_call update]. rewrite E2. cbn [bind]. rewrite E3. cbn [bind].
  assert (MS : bits_of m2 ++ suffix_bits s2 = message (ups ++ [u]) ++ suffix_bits suffix).
  { rewrite M2, M1, message_app, message_cons, message_nil, app_nil_r, <- !app_assoc. reflexivity. }
  rewrite MS in *. rewrite (answers_run _ R1 R2 fuel _ cs k3 _ D3 M ltac:(pos)). cbn [bind]. rewrite map_app, <- app_assoc. reflexivity.
Qed.
(** no update at all, or any number *)
Lemma message_run_any rate capacity hashbitlen suffix ups cs : (capacity < 2 ^ 32)%N -> (suffix < 256)%N -> sound rate capacity suffix ->
  (hashbitlen / 8 + 200 <= 2 ^ 32)%N -> Forall fits ups -> Forall whole_bytes (removelast ups) -> Forall modest cs ->
  exists k, kb_init rate capacity hashbitlen suffix = Some k /\
  exists fuel0, forall fuel, fuel0 <= fuel ->
    let g := keccak_byte f (N.to_nat (rate / 8)) (message ups ++ suffix_bits suffix) in let n := N.to_nat (hashbitlen / 8) in
    kb_calls f fuel k (map update ups ++ Final :: cs) =
    Ok (map (fun _ => (Success, [])) ups ++ (Success, outputs g 0 n) :: answers g n cs).
Proof.
  intros C S V HB FT WB M. destruct ups as [|u0 l0].
  - destruct (init_ok rate capacity hashbitlen suffix C S V) as (k & E & KF & [R1 R2] & W). exists k. split; [exact E|].
    exists (N.to_nat (hashbitlen / 8) + calls_size cs + 5). intros fuel F. cbv zeta.
    assert (FX : kh_fixed k / 8 = N.to_nat (hashbitlen / 8)) by (rewrite KF; apply div8).
    destruct (final_ok' f f_len _ R1 R2 fuel k [] suffix (W f)) as (k3 & E3 & D3).
    { rewrite FX. unfold small. pos. } { rewrite FX. pos. }
    rewrite FX in E3, D3. cbn [map app kb_calls kb_call]. rewrite E3. cbn [bind].
    rewrite (answers_run _ R1 R2 fuel _ cs k3 _ D3 M ltac:(pos)). reflexivity.
  - destruct (exists_last (l := u0 :: l0) ltac:(discriminate)) as (ups & u & X). rewrite X in *. rewrite removelast_last in WB.
    exact (message_run rate capacity hashbitlen suffix ups u cs C S V HB FT WB M).
Qed.
(** output requested before Final *)
Lemma early_run rate capacity hashbitlen suffix ups q cs : (capacity < 2 ^ 32)%N -> (suffix < 256)%N -> sound rate capacity suffix ->
  Forall fits ups -> Forall whole_bytes ups -> Forall modest (Squeeze q :: cs) -> (q mod 8 = 0)%N ->
  exists k, kb_init rate capacity hashbitlen suffix = Some k /\
  exists fuel0, forall fuel, fuel0 <= fuel ->
    let g := keccak_byte f (N.to_nat (rate / 8)) (message ups) in
    kb_calls f fuel k (map update ups ++ Squeeze q :: cs) = Ok (map (fun _ => (Success, [])) ups ++ answers g 0 (Squeeze q :: cs)).
Proof.
  intros C S V FT WB M Z. destruct (init_ok rate capacity hashbitlen suffix C S V) as (k & E & KF & [R1 R2] & W). exists k. split; [exact E|].
  exists (calls_size (map update ups) + calls_size (Squeeze q :: cs) + 5). intros fuel F. cbv zeta.
  rewrite size_cons in F. cbn [call_size] in F.
  inversion M as [|x y M1 M2]; subst.
  destruct (updates_run _ R1 R2 fuel suffix ups k [] (W f) FT WB ltac:(pos)) as (k1 & m1 & E1 & W1 & X1 & MM).
  destruct (early_call f f_len _ R1 R2 fuel k1 m1 suffix q W1 Z M1 ltac:(pos)) as (k2 & E2 & D2).
  rewrite E1. cbn [kb_calls kb_call answers]. rewrite E2. cbn [bind]. rewrite Z. cbn [N.eqb].
  assert (MS : bits_of m1 = message ups) by (rewrite MM; reflexivity).
  rewrite MS in *. rewrite (answers_run _ R1 R2 fuel _ cs k2 _ D2 M2 ltac:(pos)). reflexivity.
Qed.
(** an update that is not the last and not whole bytes: few enough bits stay with the suffix *)
Lemma few_bits rb fuel k (m : bytes) s b r : 1 <= rb -> rb <= 200 -> whole f rb k m s -> (b < 256)%N -> (0 < r)%N -> (r + N.log2 s < 8)%N ->
  5 <= fuel ->
  exists k' s', kb_update f fuel k [b] r = Ok (Success, k') /\ whole f rb k' m s' /\ kh_fixed k' = kh_fixed k /\
    suffix_bits s' = firstn (N.to_nat r) (bits_of_byte b) ++ suffix_bits s.
Proof.
  intros R1 R2 W B RP RL F. unfold kb_update. destruct W as (W1 & W2 & W3 & W4). pose proof W4 as (A3 & A4 & A5). rewrite A4.
  assert (R8 : (r < 8)%N) by pos. rewrite (N.div_small r 8 R8), (N.mod_small r 8 R8).
  destruct (N.ltb_spec (N.of_nat (length [b])) 0); [pos|]. change (N.to_nat 0) with 0. cbn [firstn nth_error].
  destruct (absorb_ok' f f_len rb R1 R2 fuel (kh_sponge k) m [] W4) as (s1 & E & W).
  { unfold small. cbn. pos. } { cbn. pos. }
  rewrite app_nil_r in W. rewrite E. cbn [bind]. destruct (N.eqb_spec r 0); [pos|]. rewrite W3.
  pose proof (join r b s ltac:(pos) W2) as J. unfold join_ok in J. cbv zeta in J |- *.
  assert (SM : N.eqb (N.land (last_bytes r b s) 0xFF00) 0 = true).
  { assert (LB : (last_bytes r b s < 256)%N).
    { unfold last_bytes. assert (X : (N.log2 (N.lor (N.land b (N.shiftl 1 r - 1)) (N.shiftl s r)) < 8)%N).
      { rewrite N.log2_lor. apply N.max_lub_lt.
        - eapply N.le_lt_trans; [apply N.log2_land|]. eapply N.le_lt_trans; [apply N.le_min_l|].
          destruct (N.eq_dec b 0) as [->|NZ]; [reflexivity|]. apply N.log2_lt_pow2; [pos|exact B].
        - rewrite N.log2_shiftl by pos. pos. }
      destruct (N.eq_dec (N.lor (N.land b (N.shiftl 1 r - 1)) (N.shiftl s r)) 0) as [E0|E0]; [rewrite E0; pos|].
      apply N.log2_lt_pow2 in X; [exact X|pos]. }
    revert LB. generalize (last_bytes r b s). intros x.
    apply (byte_cases (fun x => N.eqb (N.land x 0xFF00) 0 = true) (fun x => N.eqb (N.land x 0xFF00) 0)); [auto|]. vm_compute. reflexivity. }
  rewrite SM in *. apply andb_prop in J. destruct J as [J J3]. apply andb_prop in J. destruct J as [J1 J2].
  apply beqs_ok in J1. apply negb_true_iff, N.eqb_neq in J2. apply N.ltb_lt in J3.
  eexists. eexists. split; [reflexivity|]. split; [|split; [reflexivity|exact J1]].
  split; [assumption|]. split; [split; [apply N.neq_0_lt_0; exact J2|exact J3]|]. split; [reflexivity|exact W].
Qed.
Lemma swapped_run rate capacity hashbitlen suffix b r u cs : (capacity < 2 ^ 32)%N -> (suffix < 256)%N -> sound rate capacity suffix ->
  (hashbitlen / 8 + 200 <= 2 ^ 32)%N -> (b < 256)%N -> (0 < r)%N -> (r + N.log2 suffix < 8)%N -> fits u -> whole_bytes u -> Forall modest cs ->
  exists k, kb_init rate capacity hashbitlen suffix = Some k /\
  exists fuel0, forall fuel, fuel0 <= fuel ->
    let g := keccak_byte f (N.to_nat (rate / 8)) (message [u; ([b], r)] ++ suffix_bits suffix) in let n := N.to_nat (hashbitlen / 8) in
    kb_calls f fuel k (Update [b] r :: update u :: Final :: cs) =
    Ok ((Success, []) :: (Success, []) :: (Success, outputs g 0 n) :: answers g n cs).
Proof.
  intros C S V HB B RP RL FU WB M. destruct (init_ok rate capacity hashbitlen suffix C S V) as (k & E & KF & [R1 R2] & W). exists k. split; [exact E|].
  exists (call_size (update u) + N.to_nat (hashbitlen / 8) + calls_size cs + 5). intros fuel F. cbv zeta.
  destruct (few_bits _ fuel k [] suffix b r R1 R2 (W f) B RP RL ltac:(pos)) as (k1 & s1 & E1 & W1 & X1 & M1).
  destruct FU as (U1 & U2 & U3). unfold whole_bytes in WB. cbn [call_size update] in F.
  destruct (update_whole f f_len _ R1 R2 fuel k1 [] s1 (fst u) (snd u) W1 U1 WB U2 U3 ltac:(pos)) as (k2 & m2 & E2 & W2 & X2 & M2).
  assert (FX : kh_fixed k2 / 8 = N.to_nat (hashbitlen / 8)) by (rewrite X2, X1, KF; apply div8).
  destruct (final_ok' f f_len _ R1 R2 fuel k2 m2 s1 W2) as (k3 & E3 & D3).
  { rewrite FX. unfold small. pos. } { rewrite FX. pos. }
  rewrite FX in E3, D3. cbn [kb_calls kb_call update]. rewrite E1. cbn [bind]. rewrite E2. cbn [bind]. rewrite E3. cbn [bind].
  assert (MS : bits_of m2 ++ suffix_bits s1 = message [u; ([b], r)] ++ suffix_bits suffix).
  { rewrite M2, M1. unfold message. assert (X : bits_of [b] = bits_of_byte b) by apply app_nil_r. cbn [map concat fst snd]. rewrite X, app_nil_r, <- !app_assoc. reflexivity. }
  rewrite MS in *. rewrite (answers_run _ R1 R2 fuel _ cs k3 _ D3 M ltac:(pos)). reflexivity.
Qed.
Lemma dropped_run rate capacity hashbitlen suffix b r q : (capacity < 2 ^ 32)%N -> (suffix < 256)%N -> sound rate capacity suffix ->
  (b < 256)%N -> (0 < r)%N -> (r + N.log2 suffix < 8)%N -> (q mod 8 = 0)%N -> (q / 8 + 200 <= 2 ^ 32)%N ->
  exists k, kb_init rate capacity hashbitlen suffix = Some k /\
  exists fuel0, forall fuel, fuel0 <= fuel ->
    kb_calls f fuel k [Update [b] r; Squeeze q] =
    Ok [(Success, []); (Success, outputs (keccak_byte f (N.to_nat (rate / 8)) []) 0 (N.to_nat (q / 8)))].
Proof.
  intros C S V B RP RL Z M. destruct (init_ok rate capacity hashbitlen suffix C S V) as (k & E & KF & [R1 R2] & W). exists k. split; [exact E|].
  exists (N.to_nat (q / 8) + 5). intros fuel F.
  destruct (few_bits _ fuel k [] suffix b r R1 R2 (W f) B RP RL ltac:(pos)) as (k1 & s1 & E1 & W1 & X1 & M1).
  destruct (early_call f f_len _ R1 R2 fuel k1 [] s1 q W1 Z M ltac:(pos)) as (k2 & E2 & D2).
  cbn [kb_calls kb_call]. rewrite E1. cbn [bind]. rewrite E2. reflexivity.
Qed.

(** ** one shot *)
Lemma oneshot_pull rb : 1 <= rb -> rb <= 200 -> forall fuel st0 off need st, length st = 200 -> at_pos f rb st0 off st 0 -> need < fuel ->
  oneshot_squeeze f rb fuel st need = Ok (map (fun i => nth (i mod rb) (Nat.iter (i / rb) f st0) 0%N) (seq off need)).
Proof.
  intros R1 R2. induction fuel as [|fuel IH]; intros st0 off need st L A F; [pos|]. cbn [oneshot_squeeze].
  destruct A as (q & A1 & A2 & A3). destruct (Nat.ltb_spec rb need) as [H|H].
  - destruct (pull_stream f rb R1 R2 st0 rb off st 0) as (st' & idx' & P & _). { exists q. auto. }
    rewrite (pull_small f rb R1 R2) in P by (auto; pos). pose proof (f_equal (fun x => fst (fst x)) P) as P1. cbn [fst] in P1.
    rewrite (extract_ok rb R1 R2) by pos. cbn [bind]. rewrite P1.
    rewrite (IH st0 (off + rb) (need - rb) (f st)); [|apply f_len; assumption| |pos].
    + cbn [bind]. replace need with (rb + (need - rb)) at 2 by pos. rewrite seq_app, map_app. reflexivity.
    + exists (S q). split; [pos|]. split; [pos|]. rewrite A3. reflexivity.
  - destruct (pull_stream f rb R1 R2 st0 need off st 0) as (st' & idx' & P & _). { exists q. auto. }
    rewrite (pull_small f rb R1 R2) in P by (auto; pos). pose proof (f_equal (fun x => fst (fst x)) P) as P1. cbn [fst] in P1.
    unfold u32. rewrite N.mod_small by pos. rewrite (extract_ok rb R1 R2) by pos. rewrite P1. reflexivity.
Qed.
Lemma oneshot_ok rate capacity (input : bytes) suffix outlen : (capacity < 2 ^ 32)%N -> (suffix < 256)%N -> sound rate capacity suffix ->
  is_bytes input -> exists fuel0, forall fuel, fuel0 <= fuel ->
  oneshot f fuel rate capacity input suffix outlen =
  Ok (Some (outputs (keccak_byte f (N.to_nat (rate / 8)) (bits_of input ++ suffix_bits suffix)) 0 outlen)).
Proof.
  intros C S V B. pose proof V as (V1 & V2 & V3 & V4).
  destruct (init_ok rate capacity 0 suffix C S V) as (_ & _ & _ & [R1 R2] & _).
  exists (length input + outlen + 5). intros fuel F. unfold oneshot.
  rewrite (proj2 (bad_iff rate capacity C)) by auto. destruct (N.eqb_spec suffix 0); [contradiction|]. cbv zeta.
  set (rb := N.to_nat (rate / 8)) in *.
  destruct (blocks_ok f f_len rb R1 R2 fuel (repeat 0%N 200) input eq_refl ltac:(pos)) as (d1 & e & st1 & E1 & E2 & E3 & E4 & E5).
  rewrite E3. cbn [bind].
  assert (UL : u32 (N.of_nat (length e)) = N.of_nat (length e)) by (unfold u32; apply N.mod_small; pos). rewrite UL, Nat2N.id.
  rewrite (add_ok rb R1 R2) by pos. cbn [bind]. rewrite firstn_all.
  assert (WH : sp_whole f rb (mkSponge (xin st1 0 e) (8 * rb) (length e) false) input).
  { split; [reflexivity|]. split; [reflexivity|]. cbn [sp_state sp_idx]. rewrite E1, fold_left_app, E4.
    rewrite (ab_small f rb R1 R2) by pos. reflexivity. }
  destruct (last_ok' f f_len rb R1 R2 _ input suffix WH B ltac:(pos)) as (s' & L & D).
  unfold sponge_last in L. cbn [sp_state sp_idx sp_rate sp_squeezing] in L. destruct (N.eqb_spec suffix 0); [contradiction|].
  rewrite (rate8' rb) in L. 
  assert (Q : N.eqb (N.of_nat (length e)) (N.of_nat (rb - 1)) = (length e =? rb - 1)).
  { destruct (Nat.eqb_spec (length e) (rb - 1)) as [->|X]; [apply N.eqb_refl|]. apply N.eqb_neq. pos. }
  rewrite Q. destruct (add_byte (xin st1 0 e) suffix (length e)) as [st2| | |]; try discriminate L. cbn [bind] in *.
  destruct (add_byte (if N.leb 128 suffix && (length e =? rb - 1) then f st2 else st2) 128 (rb - 1)) as [st3| | |]; try discriminate L.
  cbn [bind] in *. inversion L; subst s'. destruct D as (_ & _ & D1 & D2). cbn [sp_state sp_idx] in D2.
  rewrite (oneshot_pull rb R1 R2 fuel (kstate f rb (bits_of input ++ suffix_bits suffix)) 0 outlen); auto; try pos.
  destruct D2 as (q & Q1 & Q2 & Q3). assert (q = 0) by nia. subst q. rewrite Q3. exact D1.
Qed.
Lemma oneshot_fails rate capacity (input : bytes) suffix outlen fuel : (capacity < 2 ^ 32)%N -> ~ sound rate capacity suffix ->
  oneshot f fuel rate capacity input suffix outlen = Ok None.
Proof.
  intros C V. unfold oneshot. cbv zeta. destruct (bad_rate rate capacity) eqn:B; [reflexivity|]. destruct (N.eqb_spec suffix 0) as [|N]; [reflexivity|].
  exfalso. apply V. apply (bad_iff _ _ C) in B. unfold sound. tauto.
Qed.

(** ** four at a time *)
Definition lane_r (i : nat) (r : status * list bytes) : status * bytes := (fst r, nth i (snd r) []).
Lemma lane_nil i : nth i (repeat ([] : bytes) 4) [] = [].
Proof. do 5 (destruct i as [|i]; [reflexivity|]). reflexivity. Qed.
Lemma call4_lanes fuel k c i : i < 4 -> okq k -> even4 c ->
  kb_call f fuel (lane_k i k) (lane i c) =
    rmap (fun x => (fst (fst x), nth i (snd (fst x)) [], lane_k i (snd x))) (kb_call4 f fuel k c) /\
  (forall x, kb_call4 f fuel k c = Ok x -> okq (snd x)).
Proof.
  intros I Q EV. destruct c as [ds n| |q]; cbn [kb_call kb_call4 lane even4] in *.
  - destruct EV as [[Q4 [L QL]] Z]. assert (QD : quad L ds) by (split; assumption).
    unfold kb_update, kb_update4. rewrite Z. cbn [N.eqb negb]. cbn [lane_k lane_s kh_sponge sp_squeezing].
    destruct (sq_squeezing (kq_sponge k)).
    { cbn [bind rmap fst snd]. split; [f_equal; f_equal; f_equal; symmetry; apply lane_nil|]. intros x X. inversion X; subst. exact Q. }
    rewrite (quad_nth L ds i QD I).
    assert (EX : existsb (fun d => N.ltb (N.of_nat (length d)) (n / 8)) ds = N.ltb (N.of_nat L) (n / 8)).
    { destruct ds as [|d ds]; [discriminate|]. inversion QL as [|x y X Y]; subst. cbn [existsb].
      destruct (N.ltb (N.of_nat (length d)) (n / 8)) eqn:E; [reflexivity|]. cbn [orb]. clear - Y E.
      induction ds as [|a ds IH]; [reflexivity|]. inversion Y as [|u v U V]; subst. cbn [existsb]. rewrite U, E. apply IH. assumption. }
    rewrite EX. destruct (N.ltb_spec (N.of_nat L) (n / 8)) as [H|H]. { split; [reflexivity|]. intros x X. discriminate X. }
    set (m := N.to_nat (n / 8)).
    assert (QD' : quad (Nat.min m L) (map (firstn m) ds)).
    { apply (quad_map L); auto. intros d Hd. rewrite firstn_length. lia. }
    pose proof (absorb4_lanes f f_len fuel (kq_sponge k) _ _ Q QD') as [P LL]. specialize (LL i I).
    rewrite nth_map in LL by (try apply QD; auto). cbn [kh_sponge lane_s] in LL |- *. rewrite LL. split.
    + destruct (sponge4_absorb _ _ _ _) as [s| | |]; cbn [bind rmap fst snd]; try reflexivity.
      do 3 f_equal. symmetry. apply lane_nil.
    + intros x. destruct (sponge4_absorb _ _ _ _) as [s| | |]; cbn [bind]; try discriminate. intros X; inversion X; subst. exact (P _ eq_refl).
  - pose proof (last4_lanes f f_len (kq_sponge k) (kq_suffix k) Q) as [P LL].
    unfold kb_final, kb_final4. cbn [lane_k kh_sponge kh_suffix kh_fixed]. rewrite (LL i I). split.
    + destruct (sponge4_last _ _ _) as [[s|]| | |]; cbn [bind rmap option_map fst snd]; try reflexivity.
      * specialize (P _ eq_refl). pose proof (squeeze4_lanes f f_len fuel s (kq_fixed k / 8) P) as [P' L'].
        rewrite (L' i I). destruct (sponge4_squeeze _ _ _ _) as [[o s']| | |]; reflexivity.
      * do 3 f_equal. symmetry. apply lane_nil.
    + intros x. destruct (sponge4_last _ _ _) as [[s|]| | |]; cbn [bind]; try discriminate.
      * specialize (P _ eq_refl). pose proof (squeeze4_lanes f f_len fuel s (kq_fixed k / 8) P) as [P' _].
        destruct (sponge4_squeeze _ _ _ _) as [[o s']| | |]; cbn [bind]; try discriminate. intros X; inversion X; subst. exact (proj1 (P' _ eq_refl)).
      * intros X; inversion X; subst. exact Q.
  - unfold kb_squeeze, kb_squeeze4. destruct (N.eqb_spec (q mod 8) 0) as [Z|Z]; cbn [negb].
    + pose proof (squeeze4_lanes f f_len fuel (kq_sponge k) (N.to_nat (q / 8)) Q) as [P LL]. cbn [lane_k kh_sponge]. rewrite (LL i I). split.
      * destruct (sponge4_squeeze _ _ _ _) as [[o s]| | |]; reflexivity.
      * intros x. destruct (sponge4_squeeze _ _ _ _) as [[o s]| | |]; cbn [bind]; try discriminate. intros X; inversion X; subst. exact (proj1 (P _ eq_refl)).
    + cbn [rmap fst snd]. split; [do 3 f_equal; symmetry; apply lane_nil|]. intros x X; inversion X; subst. exact Q.
Qed.
Lemma calls4_lanes fuel i : i < 4 -> forall cs k, okq k -> Forall even4 cs ->
  kb_calls f fuel (lane_k i k) (map (lane i) cs) = rmap (map (lane_r i)) (kb_calls4 f fuel k cs).
Proof.
  intros I. induction cs as [|c cs IH]; intros k Q E; [reflexivity|]. inversion E as [|x y E1 E2]; subst.
  destruct (call4_lanes fuel k c i I Q E1) as [A B]. cbn [map kb_calls kb_calls4]. rewrite A.
  destruct (kb_call4 f fuel k c) as [[[r o] k']| | |]; cbn [rmap bind fst snd]; try reflexivity.
  rewrite (IH k' (B _ eq_refl) E2). destruct (kb_calls4 f fuel k' cs); reflexivity.
Qed.
Lemma init4_lanes rate capacity hashbitlen suffix i : i < 4 ->
  kb_init rate capacity hashbitlen suffix = option_map (lane_k i) (kb_init4 rate capacity hashbitlen suffix) /\
  (forall k, kb_init4 rate capacity hashbitlen suffix = Some k -> okq k).
Proof.
  intros I. unfold kb_init, kb_init4. destruct (N.eqb suffix 0); [split; [reflexivity|discriminate]|].
  destruct (bad_rate rate capacity); [split; [reflexivity|discriminate]|]. split.
  - cbn [option_map]. unfold lane_k, lane_s. cbn [kq_sponge kq_fixed kq_suffix sq_states sq_rate sq_idx sq_squeezing].
    do 4 (destruct i as [|i]; [reflexivity|]). lia.
  - intros k E. inversion E; subst. split; [reflexivity|]. repeat constructor.
Qed.
Lemma odd_update4 fuel k ds n cs : (n mod 8 <> 0)%N ->
  kb_calls4 f fuel k (Update4 ds n :: cs) = do l <- kb_calls4 f fuel k cs; Ok ((Fail, repeat [] 4) :: l).
Proof. intros Z. cbn [kb_calls4 kb_call4]. unfold kb_update4. destruct (N.eqb_spec (n mod 8) 0); [contradiction|]. reflexivity. Qed.
End Run.
