(** C67, C68, C69: the hash library itself (KeccakHash.h, the one-shot sponge function, the four-way functions), for any rate,
    suffix, number of bits and sequence of calls.  Specification: BitHashSpec (padding and FIPS 202 on bit strings; what the
    calls answer) and KeccakSpec. *)
From Coq Require Import Arith NArith List Bool Lia.
From Verif Require Import Prelude SpongeModel SpongeApi KeccakModel KeccakSpec KeccakHash Sponge4Facts PropSponge BitHashSpec BitHashModel BitHashFacts BitHashApi BitHashRuns BitHashFips.
Import ListNotations.

(** Any updates, all but the last of whole bytes, then Final, then any calls at all: the digest and all later output are the
    sponge function on the bits given followed by those of the suffix; late updates and a second Final fail, as do requests
    for output that is not whole bytes, and change nothing.  Missing for C67: updates and requests of 2^32 - 200 bytes and
    more (C29 and C30 show that they can go wrong). *)
Theorem C67_message_partial : forall f rate capacity hashbitlen suffix ups cs, keeps_length f ->
  (capacity < 2 ^ 32)%N -> (suffix < 256)%N -> sound rate capacity suffix ->
  (hashbitlen / 8 + 200 <= 2 ^ 32)%N -> Forall fits ups -> Forall whole_bytes (removelast ups) -> Forall modest cs ->
  exists k, kb_init rate capacity hashbitlen suffix = Some k /\
  exists fuel0, forall fuel, fuel0 <= fuel ->
    let g := keccak_byte f (N.to_nat (rate / 8)) (message ups ++ suffix_bits suffix) in let n := N.to_nat (hashbitlen / 8) in
    kb_calls f fuel k (map update ups ++ Final :: cs) =
    Ok (map (fun _ => (Success, [])) ups ++ (Success, outputs g 0 n) :: answers g n cs).
Proof. exact (fun f rate capacity hashbitlen suffix ups cs Hf => message_run_any f Hf rate capacity hashbitlen suffix ups cs). Qed.
Print Assumptions C67_message_partial.

(** With the permutation of keccak/opt64 and the macros of KeccakHash.h: SHA3-224, -256, -384, -512 and SHAKE128, 256 of
    FIPS 202, for a message of any number of bits *)
Theorem C67_fips202_partial : forall a ups q, Forall fits ups -> Forall whole_bytes (removelast ups) ->
  (q mod 8 = 0)%N -> (q / 8 + 200 <= 2 ^ 32)%N ->
  exists k, init_macro a = Some k /\ exists fuel0, forall fuel, fuel0 <= fuel -> exists digest more,
    kb_calls permute_24rounds fuel k (map update ups ++ [Final; Squeeze q]) =
      Ok (map (fun _ => (Success, [])) ups ++ [(Success, digest); (Success, more)]) /\
    KeccakSpec.bits_of digest = fips202 a (message ups) (digest_of a) /\
    KeccakSpec.bits_of (digest ++ more) = fips202 a (message ups) (digest_of a + N.to_nat q).
Proof. exact sha3_run. Qed.
Print Assumptions C67_fips202_partial.

(** the sponge function of the theorem above is that of FIPS 202 *)
Theorem C67_sponge : forall rb n k, 1 <= rb <= 200 ->
  KeccakSpec.bits_of (outputs (keccak_byte permute_24rounds rb n) 0 k) = KeccakSpec.sponge (8 * rb) n (8 * k).
Proof. exact keccak_bits. Qed.
Print Assumptions C67_sponge.

(** What Keccak_HashInitialize (and the four-way one) refuses: all else *)
Theorem C67_refused : forall rate capacity hashbitlen suffix, (capacity < 2 ^ 32)%N -> ~ sound rate capacity suffix ->
  kb_init rate capacity hashbitlen suffix = None /\ kb_init4 rate capacity hashbitlen suffix = None.
Proof. exact init_fails. Qed.
Print Assumptions C67_refused.

(** Output before Final: accepted, and the suffix is left out *)
Theorem C67_early_partial : forall f rate capacity hashbitlen suffix ups q cs, keeps_length f ->
  (capacity < 2 ^ 32)%N -> (suffix < 256)%N -> sound rate capacity suffix ->
  Forall fits ups -> Forall whole_bytes ups -> Forall modest (Squeeze q :: cs) -> (q mod 8 = 0)%N ->
  exists k, kb_init rate capacity hashbitlen suffix = Some k /\
  exists fuel0, forall fuel, fuel0 <= fuel ->
    let g := keccak_byte f (N.to_nat (rate / 8)) (message ups) in
    kb_calls f fuel k (map update ups ++ Squeeze q :: cs) = Ok (map (fun _ => (Success, [])) ups ++ answers g 0 (Squeeze q :: cs)).
Proof. exact (fun f rate capacity hashbitlen suffix ups q cs Hf => early_run f Hf rate capacity hashbitlen suffix ups q cs). Qed.
Print Assumptions C67_early_partial.

(** Success is no sign that the bits have been taken in order.  An update of r bits (few enough to stay with the suffix)
    before one of whole bytes: both succeed, and the digest is that of the bits in the other order. *)
Theorem C67_order_refuted : forall f rate capacity hashbitlen suffix b r u cs, keeps_length f ->
  (capacity < 2 ^ 32)%N -> (suffix < 256)%N -> sound rate capacity suffix -> (hashbitlen / 8 + 200 <= 2 ^ 32)%N ->
  (b < 256)%N -> (0 < r)%N -> (r + N.log2 suffix < 8)%N -> fits u -> whole_bytes u -> Forall modest cs ->
  exists k, kb_init rate capacity hashbitlen suffix = Some k /\
  exists fuel0, forall fuel, fuel0 <= fuel ->
    let g := keccak_byte f (N.to_nat (rate / 8)) (message [u; ([b], r)] ++ suffix_bits suffix) in let n := N.to_nat (hashbitlen / 8) in
    kb_calls f fuel k (Update [b] r :: update u :: Final :: cs) =
    Ok ((Success, []) :: (Success, []) :: (Success, outputs g 0 n) :: answers g n cs).
Proof. exact (fun f rate capacity hashbitlen suffix b r u cs Hf => swapped_run f Hf rate capacity hashbitlen suffix b r u cs). Qed.
Print Assumptions C67_order_refuted.

(** and output requested without Final after such an update does not depend on the bits *)
Theorem C67_dropped_refuted : forall f rate capacity hashbitlen suffix b r q, keeps_length f ->
  (capacity < 2 ^ 32)%N -> (suffix < 256)%N -> sound rate capacity suffix ->
  (b < 256)%N -> (0 < r)%N -> (r + N.log2 suffix < 8)%N -> (q mod 8 = 0)%N -> (q / 8 + 200 <= 2 ^ 32)%N ->
  exists k, kb_init rate capacity hashbitlen suffix = Some k /\
  exists fuel0, forall fuel, fuel0 <= fuel ->
    kb_calls f fuel k [Update [b] r; Squeeze q] =
    Ok [(Success, []); (Success, outputs (keccak_byte f (N.to_nat (rate / 8)) []) 0 (N.to_nat (q / 8)))].
Proof. exact (fun f rate capacity hashbitlen suffix b r q Hf => dropped_run f Hf rate capacity hashbitlen suffix b r q). Qed.
Print Assumptions C67_dropped_refuted.

(** The one-shot function: the same sponge function, for inputs and outputs of any length; bad parameters: nothing happens *)
Theorem C68_oneshot : forall f rate capacity input suffix outlen, keeps_length f ->
  (capacity < 2 ^ 32)%N -> (suffix < 256)%N -> sound rate capacity suffix -> is_bytes input ->
  exists fuel0, forall fuel, fuel0 <= fuel ->
    oneshot f fuel rate capacity input suffix outlen =
    Ok (Some (outputs (keccak_byte f (N.to_nat (rate / 8)) (KeccakSpec.bits_of input ++ suffix_bits suffix)) 0 outlen)).
Proof. exact (fun f rate capacity input suffix outlen Hf => oneshot_ok f Hf rate capacity input suffix outlen). Qed.
Print Assumptions C68_oneshot.
Theorem C68_refused : forall f rate capacity input suffix outlen fuel, (capacity < 2 ^ 32)%N -> ~ sound rate capacity suffix ->
  oneshot f fuel rate capacity input suffix outlen = Ok None.
Proof. exact oneshot_fails. Qed.
Print Assumptions C68_refused.

(** Four at a time: for every sequence of calls with updates of whole bytes, each lane answers and writes what the scalar
    functions do with that lane's data: same return values, same outputs, same outcome *)
Theorem C69_lanes : forall f rate capacity hashbitlen suffix fuel cs i, keeps_length f -> i < 4 -> Forall even4 cs ->
  match kb_init rate capacity hashbitlen suffix, kb_init4 rate capacity hashbitlen suffix with
  | Some k, Some k4 => kb_calls f fuel k (map (lane i) cs) = rmap (map (fun r => (fst r, nth i (snd r) []))) (kb_calls4 f fuel k4 cs)
  | None, None => True
  | _, _ => False
  end.
Proof.
  intros f rate capacity hashbitlen suffix fuel cs i Hf Hi He.
  destruct (init4_lanes rate capacity hashbitlen suffix i Hi) as [E Q]. rewrite E.
  destruct (kb_init4 rate capacity hashbitlen suffix) as [k4|]; cbn [option_map]; [|exact Logic.I].
  exact (calls4_lanes f Hf fuel i Hi cs k4 (Q k4 eq_refl) He).
Qed.
Print Assumptions C69_lanes.
(** With the macros of KeccakHashtimes4.h: in each lane the function of FIPS 202 on that lane's bytes *)
Theorem C69_fips202 : forall a ups q, Forall (fun u => even4 (update4 u)) ups ->
  Forall (fun u => forall i, i < 4 -> fits (nth i (fst u) [], snd u)) ups -> (q mod 8 = 0)%N -> (q / 8 + 200 <= 2 ^ 32)%N ->
  exists k, init4_macro a = Some k /\ exists fuel0, forall fuel, fuel0 <= fuel -> exists l,
    kb_calls4 permute_24rounds fuel k (map update4 ups ++ [Final4; Squeeze4 q]) = Ok l /\
    forall i, i < 4 -> exists digest more,
      map (fun r => (fst r, nth i (snd r) [])) l = map (fun _ => (Success, [])) ups ++ [(Success, digest); (Success, more)] /\
      KeccakSpec.bits_of digest = fips202 a (message (lane_data i ups)) (digest_of a) /\
      KeccakSpec.bits_of (digest ++ more) = fips202 a (message (lane_data i ups)) (digest_of a + N.to_nat q).
Proof. exact sha3_run4. Qed.
Print Assumptions C69_fips202.
(** Updates of other numbers of bits, which the scalar functions accept, are refused and change nothing *)
Theorem C69_odd_refused : forall f fuel k ds n cs, (n mod 8 <> 0)%N ->
  kb_calls4 f fuel k (Update4 ds n :: cs) = do l <- kb_calls4 f fuel k cs; Ok ((Fail, repeat [] 4) :: l).
Proof. exact odd_update4. Qed.
Print Assumptions C69_odd_refused.

(** Known answers of the standard's examples: SHA3-256 of the five bits 1 1 0 0 1 (the upper bits of the byte are ignored), and of
    the empty string in one shot *)
Example C67_case : exists k, init_macro Sha3_256 = Some k /\
  kb_calls permute_24rounds 500 k [Update [0xF3%N] 5; Final; Update [1%N] 8; Squeeze 3; Final] =
  Ok [(Success, []);
      (Success, [0x7B; 0x00; 0x47; 0xCF; 0x5A; 0x45; 0x68; 0x82; 0x36; 0x3C; 0xBF; 0x0F; 0xB0; 0x53; 0x22; 0xCF;
                 0x65; 0xF4; 0xB7; 0x05; 0x9A; 0x46; 0x36; 0x5E; 0x83; 0x01; 0x32; 0xE3; 0xB5; 0xD9; 0x57; 0xAF]%N);
      (Fail, []); (Fail, []); (Fail, [])].
Proof. eexists. split; [reflexivity|]. vm_compute. reflexivity. Qed.
Example C67_met : sound 1088 512 6 /\ Forall fits [([1; 2]%N, 16%N); ([3; 0xF3]%N, 13%N)] /\ Forall whole_bytes (removelast [([1; 2]%N, 16%N); ([3; 0xF3]%N, 13%N)]) /\
  Forall modest [Update [] 77; Squeeze 24; Squeeze 25] /\ (5 + N.log2 6 < 8)%N /\
  message [([3; 0xF3]%N, 13%N)] = map (N.eqb 1) [1; 1; 0; 0; 0; 0; 0; 0; 1; 1; 0; 0; 1]%N /\ suffix_bits 6 = [false; true] /\ suffix_bits 1 = [] /\
  ~ sound 1600 0 0 /\ ~ sound 1092 508 6 /\ sound 8 1592 0x80.
Proof.
  repeat split; try (repeat constructor; try discriminate); try reflexivity; try discriminate;
  intros (A & B & C & D); try discriminate C; apply D; reflexivity.
Qed.
Example C68_case : oneshot permute_24rounds 500 1088 512 [] 6 32 =
  Ok (Some [0xA7; 0xFF; 0xC6; 0xF8; 0xBF; 0x1E; 0xD7; 0x66; 0x51; 0xC1; 0x47; 0x56; 0xA0; 0x61; 0xD6; 0x62;
            0xF5; 0x80; 0xFF; 0x4D; 0xE4; 0x3B; 0x49; 0xFA; 0x82; 0xD8; 0x0A; 0x4B; 0x80; 0xF8; 0x43; 0x4A]%N).
Proof. vm_compute. reflexivity. Qed.
Example C69_case : Forall even4 [Update4 [[1]; [2]; [3]; [4]]%N 8; Final4; Update4 [[]; []; []; []] 0; Squeeze4 5] /\
  exists k4 o, init4_macro Sha3_224 = Some k4 /\
  kb_calls4 permute_24rounds 500 k4 [Update4 [[1]; [2]; [3]; [4]]%N 3; Update4 [[1]; [2]; [3]; [4]]%N 8; Final4; Squeeze4 5] =
  Ok [(Fail, [[]; []; []; []]); (Success, [[]; []; []; []]); (Success, o); (Fail, [[]; []; []; []])] /\ map (@length N) o = [28; 28; 28; 28].
Proof.
  split.
  - constructor; [|constructor; [exact Logic.I|constructor; [|constructor; [exact Logic.I|constructor]]]].
    + split; [split; [reflexivity|exists 1; repeat constructor]|reflexivity].
    + split; [split; [reflexivity|exists 0; repeat constructor]|reflexivity].
  - eexists. eexists. split; [reflexivity|]. split; vm_compute; reflexivity.
Qed.
