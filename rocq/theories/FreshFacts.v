(** Salts and seeds of different signing calls (C59). *)
From Coq Require Import Arith NArith ZArith List Bool Lia.
From Verif Require Import BanquetPure Prelude Instances HashModel BanquetModel BanquetApi History SignFacts.
Import ListNotations.

Lemma builtin_by_id I I' : builtin I -> builtin I' -> i_params I = i_params I' -> I = I'.
Proof.
  assert (G : forall J, builtin J -> In J (tl instances)).
  { intros J HB. assert (HX : existsb (fun K => if list_eq_dec Nat.eq_dec (key_size (i_aes K) :: block_size (i_aes K) :: num_blocks (i_aes K) :: num_sboxes (i_aes K) :: digest_size K :: seed_size K :: num_rounds K :: num_parties K :: m1 K :: m2 K :: lambda K :: [i_params K])
       (key_size (i_aes J) :: block_size (i_aes J) :: num_blocks (i_aes J) :: num_sboxes (i_aes J) :: digest_size J :: seed_size J :: num_rounds J :: num_parties J :: m1 J :: m2 J :: lambda J :: [i_params J]) then true else false) (tl instances) = true).
    { revert J HB. apply builtin_forall. vm_compute. reflexivity. }
    apply existsb_exists in HX. destruct HX as (K & HK & E). destruct (list_eq_dec _ _ _) as [EQ|_] in E; [|discriminate E].
    replace J with K; [exact HK|]. destruct J as [[? ? ? ?] ? ? ? ? ? ? ? ?], K as [[? ? ? ?] ? ? ? ? ? ? ? ?]. cbn in EQ. congruence. }
  intros HB HB' E. apply G in HB, HB'. assert (ND : NoDup (map i_params (tl instances))).
  { repeat (constructor; [vm_compute; intuition discriminate|]). constructor. }
  revert HB HB' E ND. generalize (tl instances) as l. clear. induction l as [|K l IH]; [intros []|]. intros [A|A] [B|B] E ND; cbn [map] in ND; inversion ND as [|? ? NI ND']; subst.
  - congruence.
  - exfalso. apply NI. rewrite E. apply in_map, B.
  - exfalso. apply NI. rewrite <- E. apply in_map, A.
  - apply IH; assumption.
Qed.
Lemma builtin_id16 I : builtin I -> (N.of_nat (i_params I) < 65536)%N.
Proof. intros HB. apply N.ltb_lt. revert I HB. apply (builtin_forall (fun I => (N.of_nat (i_params I) <? 65536)%N)). vm_compute. reflexivity. Qed.
Lemma app_len_inj {A} (a a' b b' : list A) : length a = length a' -> a ++ b = a' ++ b' -> a = a' /\ b = b'.
Proof.
  revert a'. induction a as [|x a IH]; intros [|x' a'] L E; try discriminate L; [auto|]. cbn in L, E. injection E as -> E. destruct (IH a' ltac:(lia) E) as [-> ->]. auto.
Qed.
Definition signing_input (I : instance) (kp : keypair) (msg : bytes) : bytes := le16 (i_params I) ++ fst kp ++ snd kp ++ msg.
Lemma signing_input_inj I I' (kp kp' : keypair) msg msg' : builtin I -> builtin I' ->
  length (fst kp) = key_size (i_aes I) -> length (snd kp) = 2 * pt_size I -> length (fst kp') = key_size (i_aes I') -> length (snd kp') = 2 * pt_size I' ->
  signing_input I kp msg = signing_input I' kp' msg' -> I = I' /\ kp = kp' /\ msg = msg'.
Proof.
  intros HB HB' K1 P1 K2 P2 E. unfold signing_input in E.
  apply app_len_inj in E; [|rewrite !le16_length; reflexivity]. destruct E as [E1 E]. apply le16_inj in E1; [|apply builtin_id16; assumption..].
  apply builtin_by_id in E1; [|assumption..]. subst I'.
  apply app_len_inj in E; [|congruence]. destruct E as [E2 E]. apply app_len_inj in E; [|congruence]. destruct E as [E3 ->].
  split; [reflexivity|]. split; [|reflexivity]. destruct kp, kp'. cbn in *. congruence.
Qed.
Lemma salts_differ H I I' fuel fuel' garb garb' st st' kp kp' msg msg' sig sig' : builtin I -> builtin I' ->
  length (fst kp) = key_size (i_aes I) -> length (snd kp) = 2 * pt_size I -> length (fst kp') = key_size (i_aes I') -> length (snd kp') = 2 * pt_size I' ->
  snd (sign H fuel garb st I kp msg) = Ok sig -> snd (sign H fuel' garb' st' I' kp' msg') = Ok sig' -> s_salt sig = s_salt sig' ->
  (I = I' /\ kp = kp' /\ msg = msg' /\ sig = sig') \/
  (signing_input I kp msg <> signing_input I' kp' msg' /\
   stream H (digest_size I =? 32) (signing_input I kp msg) 0 32 = stream H (digest_size I' =? 32) (signing_input I' kp' msg') 0 32).
Proof.
  intros HB HB' K1 P1 K2 P2 S S' E. rewrite (sign_salt H fuel garb st I kp msg sig S), (sign_salt H fuel' garb' st' I' kp' msg' sig' S') in E.
  destruct (list_eq_dec N.eq_dec (signing_input I kp msg) (signing_input I' kp' msg')) as [EQ|NE]; [|right; split; [exact NE|exact E]].
  left. destruct (signing_input_inj I I' kp kp' msg msg' HB HB' K1 P1 K2 P2 EQ) as (<- & <- & <-). do 3 (split; [reflexivity|]).
  apply (sign_deterministic H [] [] fuel fuel' garb garb' I kp msg sig sig').
  - destruct (builtin_inst_ok I HB) as [c OK]. pose proof (BanquetPure.n_pos I c _ OK). lia.
  - rewrite (sign_state H fuel garb _ st). exact S.
  - rewrite (sign_state H fuel' garb' _ st'). exact S'.
Qed.
