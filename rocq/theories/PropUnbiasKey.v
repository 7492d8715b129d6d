(** Property theorem about the distribution of generated key pairs (C63).  [from_bytes_of ks ps s]: a random source that
    hands out the bytes of s one after the other, ks to the even and ps to the odd calls; [all_sbox_inputs], [cipher],
    [blocks]: the cipher of FIPS-197 (AesSpec); [str n b]: b is n bytes. *)
From Coq Require Import Arith NArith ZArith List Bool Lia.
From Verif Require Import Prelude Instances AesSpec AesApi AesShares BanquetModel BanquetPure BanquetApi UnbiasKey PropSign SignFacts FreeSpec.
Import ListNotations.

(** C63: let key generation make at most q attempts, with the bytes of a string s as its random bytes.  Each pair of a
    key and a plaintext that encrypts without a zero S-box input comes from the same number K of strings s; and there are
    some.  (By C03 no other pairs are returned.) *)
Theorem C63_keys_unbiased : forall I q, regular I ->
  let ks := key_size (i_aes I) in let ps := block_size (i_aes I) * num_blocks (i_aes I) in let nk := ks / 4 in
  exists K, (1 <= q -> 1 <= K) /\ forall key pt, str ks key -> str ps pt -> ~ In 0%N (all_sbox_inputs nk key (blocks nk pt)) ->
  exists l, NoDup l /\ length l = K /\
  forall s, In s l <-> str (q * (ks + ps)) s /\ keygen q I (from_bytes_of ks ps s) = Ok (key, pt ++ flat_map (cipher nk key) (blocks nk pt)).
Proof. exact key_api. Qed.
Print Assumptions C63_keys_unbiased.

(** There are such pairs, and one attempt can suffice. *)
Example C63_case : regular I1 /\ exists key pt, str 16 key /\ str 16 pt /\ ~ In 0%N (all_sbox_inputs 4 key (blocks 4 pt)) /\
  exists s, str 32 s /\ exists kp, keygen 1 I1 (from_bytes_of 16 16 s) = Ok kp.
Proof.
  split; [apply builtin_regular; exists 1%Z; reflexivity|]. destruct (keygen 1 I1 ex_rng) as [[key pk]| | |] eqn:E; [|exfalso; revert E; vm_compute; discriminate..].
  assert (B : regular I1) by (apply builtin_regular; exists 1%Z; reflexivity). assert (R : rng_bytes ex_rng).
  { intros i. unfold ex_rng. cbn [snd]. apply Forall_map, Forall_forall. intros j _. destruct (Nat.even i); apply N.mod_lt; discriminate. }
  destruct (key_cases I1 1 ex_rng _ B R E) as (c & key' & pt & ct & OK & X & Hk & Hp & Hct). injection X as -> ->. pose proof (inst_aes_in I1 c _ _ _ OK Hk Hp) as Hin.
  assert (NZ : ~ In 0%N (all_sbox_inputs (nk_of I1) key' (blocks (nk_of I1) pt))) by (intros Q; apply (aes_none _ _ _ Hin) in Q; rewrite Hct in Q; discriminate Q).
  exists key', pt. split; [exact Hk|]. split; [exact Hp|]. split; [exact NZ|].
  destruct (C63_keys_unbiased I1 1 B) as (K & HK & C). destruct (C key' pt Hk Hp NZ) as (l & _ & L & IN). destruct l as [|s l]; [cbn [length] in L; specialize (HK (le_n 1)); lia|].
  destruct (proj1 (IN s) (or_introl eq_refl)) as [Hs Es].
  exists s. split; [exact Hs|]. eexists. exact Es.
Qed.
