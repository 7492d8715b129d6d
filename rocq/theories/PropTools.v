(** Property theorems about the benchmark programs (C65).  [bench] and [bench_free] (ToolModel) map the arguments after the program's
    name to the exit status and the lines printed; [timer]: the timer could be set up; [posix], [einval]: choices of the C library.
    ToolSpec: [numeral s n], s is a decimal numeral of value n; [iter_option t], the ways of writing -i t; [env_ok], the random
    source delivers at most the bytes asked for; [row_size], the length of a signature; [still_running], a drawing loop has not ended. *)
From Coq Require Import String Arith NArith ZArith List Bool Lia.
From Verif Require Import Prelude FieldModel Instances HashModel BanquetModel BanquetApi FreeSpec FreeApi ToolModel ToolSpec ToolFacts PropSign.
Import ListNotations.

(** Numerals are understood: the parameter set and the iterations are those given, and anything outside the table or the 32-bit range is refused. *)
Theorem C65_arguments : forall posix einval s p, numeral s p ->
  (forall r, parse_args posix einval [s] = inr r <-> r = (p, 10%N) /\ (1 <= p <= 23)%N) /\
  forall t n l r, numeral t n -> In l (iter_option t) ->
    (parse_args posix einval (l ++ [s]) = inr r <-> r = (p, n) /\ (1 <= p <= 23)%N /\ (n < 2 ^ 32)%N) /\
    (parse_args false einval (s :: l) = inr r <-> r = (p, n) /\ (1 <= p <= 23)%N /\ (n < 2 ^ 32)%N).
Proof.
  intros posix einval s p HS.
  assert (G : forall n r, chosen p n = inr r <-> r = (p, n) /\ (1 <= p <= 23)%N /\ (n < 2 ^ 32)%N).
  { intros n r. unfold chosen. change (2 ^ 32)%N with 4294967296%N. destruct (N.ltb_spec n 4294967296) as [A|A]; [|split; [discriminate|lia]].
    destruct (N.ltb_spec p 4294967296) as [B|B]; [|split; [discriminate|lia]]. destruct (N.leb_spec p 0) as [C|C]; [split; [discriminate|lia]|]. destruct (N.leb_spec 24 p) as [D|D]; cbn [orb].
    - split; [discriminate|lia].
    - split; [intros X; injection X as <-; split; [reflexivity|lia]|intros [-> _]; reflexivity]. }
  split.
  - intros r. assert (O : parse_args posix einval [s] = chosen p 10) by (etransitivity; [|exact (operand_only posix einval s p [] HS Logic.I)]; do 2 f_equal; symmetry; apply app_nil_r). rewrite O, G. split; [intros (A & B & _)|intros (A & B)]; auto. split; [exact A|]. split; [exact B|reflexivity].
  - intros t n l r HT HL. rewrite (operand_last posix einval s p t n l HS HT HL), (operand_first einval s p t n l HS HT HL). split; apply G.
Qed.
Print Assumptions C65_arguments.
(** Whatever the arguments: either a message is printed, the status is -1 and nothing is called, or a parameter set of the table
    runs, each iteration's signature verifies after transport, and each row shows the length of that set's signatures. *)
Theorem C65_bench : forall timer posix einval H E args,
  (exists l, parse_args posix einval args = inl l /\ bench timer posix einval H E args = Ok ((-1)%Z, [l])) \/
  exists p n J, parse_args posix einval args = inr (p, n) /\ (1 <= p <= 23)%N /\ banquet_instance_get (Z.of_N p) = Ok J /\
    ((timer = false /\ bench timer posix einval H E args = Ok (0%Z, [LTimer])) \/
     (timer = true /\ (env_ok E J ->
       bench timer posix einval H E args = Ok (0%Z, instance_line J :: LHeader :: repeat (LRow (row_size J)) (N.to_nat n)) \/
       bench timer posix einval H E args = OutOfFuel /\ exists j, j < N.to_nat n /\ still_running H E J j))).
Proof. exact bench_run. Qed.
Print Assumptions C65_bench.

(** The messages: numerals only, but not exactly one of them; one outside the table or the 32-bit range; an unknown option, short or long.  The
    same for bench_free, where the wrong split of the S-boxes comes in. *)
Theorem C65_messages : forall posix einval ss ns, Forall2 numeral ss ns ->
  (length ss <> 1 -> parse_args posix einval ss = inl LUsage) /\
  (forall p, ns = [p] -> ((2 ^ 32 <= p)%N -> parse_args posix einval ss = inl LNotNumber) /\ (p = 0%N \/ (24 <= p < 2 ^ 32)%N -> parse_args posix einval ss = inl LInvalidSet)) /\
  (length ss < 6 -> parse_args_free posix einval ss = Ok (inl LUsage)) /\
  (6 <= length ss -> Exists (fun v => 2 ^ 32 <= v)%N (firstn 6 ns) -> parse_args_free posix einval ss = Ok (inl LNotNumber)) /\
  (forall c w, ~ In c [45; 105; 108]%N -> parse_args posix einval ((45%N :: c :: w) :: ss) = inl LUsage) /\
  (forall name v, ~ In 61%N name -> (forall t, text "iter" <> name ++ t) -> v = [] \/ (exists u, v = 61%N :: u) -> parse_args posix einval ((text "--" ++ name ++ v) :: ss) = inl LUsage) /\
  (forall H E junk kappa n tau a b lam rest aes, ns = map N.of_nat [kappa; n; tau; a; b; lam] ++ rest -> Forall (fun v => v < 2 ^ 32)%N ns ->
     In (kappa, aes) [(16, mkAes 16 16 1 200); (24, mkAes 24 16 2 416); (32, mkAes 32 16 2 500)] -> a * b <> num_sboxes aes -> (N.of_nat a * N.of_nat b < 2 ^ 32)%N ->
     bench_free true posix einval H E junk ss = Ok (0%Z, [instance_line (mkInst aes (2 * kappa) kappa tau n a b lam (i_params junk)); LSplit])).
Proof.
  intros posix einval ss ns HS. change (2 ^ 32)%N with 4294967296%N. split; [|split; [|split; [|split; [|split; [|split]]]]].
  - intros L. unfold parse_args. destruct ss as [|s ss]; [reflexivity|]. rewrite (getopt_operands posix _ _ HS). cbn [length Nat.add Nat.leb scan].
    destruct ss as [|s' ss]; [contradiction L; reflexivity|]. destruct (length (s' :: ss) + 1); reflexivity.
  - intros p ->. inversion HS as [|s ? ? ? HN HT]; subst. inversion HT; subst.
    assert (O : parse_args posix einval [s] = chosen p 10) by (etransitivity; [|exact (operand_only posix einval s p [] HN Logic.I)]; do 2 f_equal; symmetry; apply app_nil_r).
    rewrite O. unfold chosen. change (10 <? 4294967296)%N with true. split; intros B.
    + rewrite (proj2 (N.ltb_ge p 4294967296)) by lia. reflexivity.
    + rewrite (proj2 (N.ltb_lt p 4294967296)) by lia. destruct (N.leb_spec p 0) as [C|C]; [reflexivity|]. rewrite (proj2 (N.leb_le 24 p)) by lia. reflexivity.
  - intros L. unfold parse_args_free. rewrite (proj2 (Nat.leb_le (length ss + 1) 6)) by lia. reflexivity.
  - intros L EX. unfold parse_args_free. rewrite (proj2 (Nat.leb_gt (length ss + 1) 6)) by lia. rewrite (getopt_operands posix _ _ HS). cbn [scan].
    assert (F6 : Forall2 numeral (firstn 6 ss) (firstn 6 ns)) by (clear - HS; generalize 6; induction HS as [|x y l l' R F IH]; intros [|k]; cbn [firstn]; constructor; auto).
    rewrite <- (firstn_skipn 6 ss). rewrite (free_numbers einval (firstn 6 ss) (firstn 6 ns) 6 (skipn 6 ss) F6) by (rewrite firstn_length; lia).
    replace (forallb (fun n => (n <? 4294967296)%N) (firstn 6 ns)) with false; [reflexivity|]. symmetry. apply not_true_is_false. rewrite forallb_forall. intros A.
    apply Exists_exists in EX. destruct EX as (v & Hv & B). specialize (A v Hv). apply N.ltb_lt in A. lia.
  - intros c w HC. assert (A : c <> 45%N /\ c <> 105%N /\ c <> 108%N) by (repeat split; intros ->; apply HC; cbn; auto). destruct A as (A1 & A2 & A3). unfold parse_args. cbn [length Nat.add Nat.leb].
    replace (length ss + 1 <=? 0) with false by (symmetry; apply Nat.leb_gt; lia). cbn [getopt]. rewrite N.eqb_refl. rewrite (proj2 (N.eqb_neq c 45) A1), (proj2 (N.eqb_neq c 105) A2), (proj2 (N.eqb_neq c 108) A3). reflexivity.
  - intros name v NI NP HV. unfold parse_args. cbn [length Nat.add Nat.leb]. replace (length ss + 1 <=? 0) with false by (symmetry; apply Nat.leb_gt; lia).
    assert (SP : exists o, split_eq (name ++ v) = (name, o)).
    { clear - NI HV. induction name as [|a name IH]; [destruct HV as [->|[u ->]]; eexists; reflexivity|]. destruct IH as [o IH]; [intros X; apply NI; right; exact X|].
      exists o. cbn. rewrite (proj2 (N.eqb_neq a 61)) by (intros ->; apply NI; left; reflexivity). fold (split_eq (name ++ v)). rewrite IH. reflexivity. }
    assert (PF : is_prefix name (text "iter") = false).
    { apply not_true_is_false. intros T. revert NP T. generalize (text "iter"). clear. induction name as [|a name IH]; intros b NP T; [exact (NP b eq_refl)|].
      destruct b as [|y b]; [discriminate T|]. cbn in T. apply andb_true_iff in T. destruct T as [T1 T2]. apply N.eqb_eq in T1. subst y.
      apply (IH b); [|exact T2]. intros t ->. exact (NP t eq_refl). }
    destruct SP as [o SP]. assert (G : getopt posix ((text "--" ++ name ++ v) :: ss) = ([OptOther], [])).
    { change (text "--" ++ name ++ v) with (45%N :: 45%N :: (name ++ v)). cbn [getopt]. change (45 =? 45)%N with true. cbn iota. rewrite SP, PF.
      destruct name as [|a name]; [exfalso; exact (NP (text "iter") eq_refl)|]. reflexivity. }
    rewrite G. reflexivity.
  - intros H E junk kappa n tau a b lam rest aes -> HB HK NE LT. apply Forall2_app_inv_r in HS. destruct HS as (s1 & s2 & F1 & F2 & ->). apply Forall_app in HB. destruct HB as [HB _].
    assert (HR : Forall (fun s => exists v, numeral s v) s2) by (clear - F2; induction F2; constructor; eauto).
    pose proof (free_parse_ten posix einval s1 _ _ _ _ _ _ s2 F1 HB HR) as EP. unfold bench_free. rewrite EP. cbn [bind negb]. unfold free_instance. cbn [o_kappa o_parties o_tau o_m1 o_m2 o_lambda]. rewrite !Nat2N.id.
    change (2 ^ 32)%N with 4294967296%N. rewrite (N.mod_small (_ * _) 4294967296) by exact LT.
    destruct HK as [HK|[HK|[HK|[]]]]; injection HK as <- <-; cbn [N.of_nat Pos.of_succ_nat Pos.succ N.eqb Pos.eqb i_aes num_sboxes app] in *;
      match goal with |- context [negb (?x =? ?y)%N] => replace (x =? y)%N with false by (symmetry; apply N.eqb_neq; lia) end; reflexivity.
Qed.
Print Assumptions C65_messages.
(** Arguments that are no numerals are not refused as the message "Failed to parse argument as positive base-10 number!" has it: a
    numeral followed by anything is taken for the numeral, and with C libraries that leave errno alone (glibc) a word is zero iterations. *)
Theorem C65_no_numeral_refuted : (forall posix einval s p c rest, numeral s p -> (1 <= p <= 23)%N -> ~ (48 <= c <= 57)%N -> parse_args posix einval [s ++ c :: rest] = inr (p, 10%N)) /\
  forall posix, parse_args posix false [text "-i"; text "many"; text "1"] = inr (1, 0)%N.
Proof.
  split.
  - intros posix einval s p c rest HS Hp Hc. rewrite (operand_only posix einval s p (c :: rest) HS).
    + unfold chosen. change (10 <? 4294967296)%N with true. rewrite (proj2 (N.ltb_lt p 4294967296)) by lia. rewrite (proj2 (N.leb_gt p 0)) by lia. rewrite (proj2 (N.leb_gt 24 p)) by lia. reflexivity.
    + unfold is_digit. destruct (N.leb_spec 48 c); [|reflexivity]. destruct (N.leb_spec c 57); [lia|reflexivity].
  - intros [|]; reflexivity.
Qed.
Print Assumptions C65_no_numeral_refuted.

(** bench_free with six numerals: if they make a proper instance with a number of parties at most 15 below a power of two, all
    iterations (ten, or those asked for) verify.  Further numerals are ignored. *)
Theorem C65_free_partial : forall posix einval H E junk ss rest kappa n tau a b lam aes,
  Forall2 numeral ss (map N.of_nat [kappa; n; tau; a; b; lam]) -> Forall (fun v => N.of_nat v < 2 ^ 32)%N [kappa; n; tau; a; b; lam] -> Forall (fun s => exists v, numeral s v) rest ->
  In (kappa, aes) [(16, mkAes 16 16 1 200); (24, mkAes 24 16 2 416); (32, mkAes 32 16 2 500)] ->
  let J := mkInst aes (2 * kappa) kappa tau n a b lam (i_params junk) in
  proper J -> near_power n -> env_ok E J ->
  (bench_free true posix einval H E junk (ss ++ rest) = Ok (0%Z, instance_line J :: LHeader :: repeat (LRow (row_size J)) 10) \/
   bench_free true posix einval H E junk (ss ++ rest) = OutOfFuel /\ exists j, j < 10 /\ still_running H E J j) /\
  forall t it l, numeral t (N.of_nat it) -> (N.of_nat it < 2 ^ 32)%N -> In l (iter_option t) ->
    bench_free true posix einval H E junk (l ++ ss ++ rest) = Ok (0%Z, instance_line J :: LHeader :: repeat (LRow (row_size J)) it) \/
    bench_free true posix einval H E junk (l ++ ss ++ rest) = OutOfFuel /\ exists j, j < it /\ still_running H E J j.
Proof.
  intros posix einval H E junk ss rest kappa n tau a b lam aes HS HB HR HK J P NP HE.
  assert (HB' : Forall (fun v => v < 4294967296)%N (map N.of_nat [kappa; n; tau; a; b; lam])) by (apply Forall_map; exact HB).
  assert (G : forall it, free_instance junk (mkOptions it (N.of_nat kappa) (N.of_nat n) (N.of_nat tau) (N.of_nat a) (N.of_nat b) (N.of_nat lam)) = (J, [])).
  { intros it. unfold free_instance. cbn [o_kappa o_parties o_tau o_m1 o_m2 o_lambda]. rewrite !Nat2N.id. destruct HK as [HK|[HK|[HK|[]]]]; injection HK as <- <-; reflexivity. }
  split.
  - pose proof (free_parse_ten posix einval ss _ _ _ _ _ _ rest HS HB' HR) as EP. pose proof (free_run posix einval H E junk _ _ EP) as R. rewrite G in R. exact (R P NP HE).
  - intros t it l HT Hit HL. pose proof (free_parse posix einval l t _ ss _ _ _ _ _ _ rest HT Hit HL HS HB' HR) as EP. pose proof (free_run posix einval H E junk _ _ EP) as R. rewrite G in R.
    cbn [o_iter] in R. rewrite Nat2N.id in R. exact (R P NP HE).
Qed.
Print Assumptions C65_free_partial.
(** With -i and fewer than six numerals (but at least six words in all) the program passes a null pointer to strtol. *)
Theorem C65_free_missing_refuted : forall timer posix einval H E junk l t it ss ns, numeral t it -> (it < 2 ^ 32)%N -> In l (iter_option t) -> Forall2 numeral ss ns ->
  Forall (fun v => v < 2 ^ 32)%N ns -> length ss < 6 -> 6 <= length l + length ss -> bench_free timer posix einval H E junk (l ++ ss) = UB OutOfBounds.
Proof. exact free_missing. Qed.
Print Assumptions C65_free_missing_refuted.
(** A kappa other than 16, 24 and 32 is reported as invalid and used nevertheless, with the AES parameters that happened to be in memory. *)
Theorem C65_free_kappa_refuted : forall kappa s, numeral s (N.of_nat kappa) -> 1 <= kappa <= 31 -> kappa <> 16 -> kappa <> 24 ->
  exists junk, forall posix einval H E, let J := mkInst (mkAes 16 16 1 200) (2 * kappa) kappa 41 16 10 20 4 0 in env_ok E J ->
  let args := [s; text "16"; text "41"; text "10"; text "20"; text "4"] in
  bench_free true posix einval H E junk args = Ok (0%Z, LKappa :: instance_line J :: LHeader :: repeat (LRow (row_size J)) 10) \/
  bench_free true posix einval H E junk args = OutOfFuel /\ exists j, j < 10 /\ still_running H E J j.
Proof.
  intros kappa s HS HK N1 N2. exists (mkInst (mkAes 16 16 1 200) 0 0 0 0 0 0 0 0). intros posix einval H E J HE args.
  assert (HN : Forall2 numeral args [N.of_nat kappa; 16; 41; 10; 20; 4]%N).
  { constructor; [exact HS|]. repeat (constructor; [split; [discriminate|split; [repeat constructor; discriminate|reflexivity]]|]). constructor. }
  assert (HB : Forall (fun v => v < 4294967296)%N [N.of_nat kappa; 16; 41; 10; 20; 4]%N) by (constructor; [lia|repeat constructor]).
  pose proof (free_parse_ten posix einval args _ _ _ _ _ _ [] HN HB (Forall_nil _)) as EP. rewrite app_nil_r in EP.
  set (junk := mkInst (mkAes 16 16 1 200) 0 0 0 0 0 0 0 0) in *.
  assert (G : free_instance junk (mkOptions 10 (N.of_nat kappa) 16 41 10 20 4) = (J, [LKappa])).
  { unfold free_instance. cbn [o_kappa o_parties o_tau o_m1 o_m2 o_lambda]. rewrite (proj2 (N.eqb_neq _ 16)) by lia. rewrite (proj2 (N.eqb_neq _ 24)) by lia. rewrite (proj2 (N.eqb_neq _ 32)) by lia.
    rewrite N.mod_small by (change (2 ^ 32)%N with 4294967296%N; lia). rewrite N2Nat.inj_mul, !Nat2N.id. reflexivity. }
  pose proof (free_run posix einval H E junk _ _ EP) as R. rewrite G in R. cbn [fst snd o_iter] in R. refine (R _ _ HE).
  - constructor; cbn; try lia; auto.
  - exists 4. cbn. lia.
Qed.
Print Assumptions C65_free_kappa_refuted.
(** The product of m1 and m2 is taken modulo 2^32: 8 and 536870937 pass as a split of 200 S-boxes. *)
Theorem C65_free_product_refuted : forall posix einval H E junk, exists J, m1 J = N.to_nat 8 /\ m2 J = N.to_nat 536870937 /\ num_sboxes (i_aes J) = 200 /\
  bench_free true posix einval H E junk [text "-i"; text "0"; text "16"; text "16"; text "41"; text "8"; text "536870937"; text "4"] = Ok (0%Z, [instance_line J; LHeader]).
Proof.
  intros posix einval H E junk. exists (fst (free_instance junk (mkOptions 0 16 16 41 8 536870937 4))). split; [reflexivity|]. split; [reflexivity|]. split; [reflexivity|].
  unfold bench_free.
  assert (EP : parse_args_free posix einval [text "-i"; text "0"; text "16"; text "16"; text "41"; text "8"; text "536870937"; text "4"] = Ok (inr (mkOptions 0 16 16 41 8 536870937 4))) by (destruct posix; reflexivity).
  rewrite EP. cbn [bind negb]. assert (G : free_instance junk (mkOptions 0 16 16 41 8 536870937 4) = (fst (free_instance junk (mkOptions 0 16 16 41 8 536870937 4)), [])) by reflexivity.
  rewrite G. cbn [fst]. set (J := fst (free_instance _ _)). assert (EA : num_sboxes (i_aes J) = 200) by reflexivity. rewrite EA.
  change (negb ((o_m1 (mkOptions 0 16 16 41 8 536870937 4) * o_m2 (mkOptions 0 16 16 41 8 536870937 4)) mod 2 ^ 32 =? N.of_nat 200)%N) with false. reflexivity.
Qed.
Print Assumptions C65_free_product_refuted.

(** Cases: a run of bench with parameter set 1 that ends, and arguments for bench_free. *)
Definition ex_env : surroundings := mkEnv (fun _ => ex_rng) (fun _ _ _ => 0%N) 1 1.
Example C65_case : numeral (text "007") 7 /\ env_ok ex_env I1 /\ env_ok ex_env (mkInst (mkAes 16 16 1 200) 32 16 41 16 10 20 4 0) /\
  proper (mkInst (mkAes 16 16 1 200) 32 16 41 16 10 20 4 0) /\ near_power 16 /\ In [text "-i"; text "3"] (iter_option (text "3")) /\
  parse_args false false [text "1"; text "-i3"] = inr (1, 3)%N /\
  bench true false false ones ex_env [text "1"; text "-i3"] = Ok (0%Z, instance_line I1 :: LHeader :: repeat (LRow (row_size I1)) 3) /\ N.of_nat (row_size I1) = 15968%N.
Proof.
  assert (R : forall b, 16 <= b -> (forall i : nat, rng_bytes ex_rng /\ forall j, length (snd (ex_rng j)) <= if Nat.even j then 16 else b)).
  { intros b Hb i. split.
    - intros j. unfold ex_rng. cbn [snd]. apply Forall_map, Forall_forall. intros k _. destruct (Nat.even j); apply N.mod_lt; discriminate.
    - intros j. unfold ex_rng. cbn [snd]. rewrite map_length, seq_length. destruct (Nat.even j); lia. }
  split; [split; [discriminate|split; [repeat constructor; discriminate|reflexivity]]|].
  assert (E1 : env_ok ex_env I1) by (split; [exact (R 16 (le_n _))|apply le_n]). split; [exact E1|]. split; [split; [exact (R 16 (le_n _))|apply le_n]|].
  split; [constructor; cbn; try lia; auto|]. split; [exists 4; cbn; lia|]. split; [left; reflexivity|]. split; [reflexivity|]. split; [|vm_compute; reflexivity].
  destruct (C65_bench true false false ones ex_env [text "1"; text "-i3"]) as [(l & A & _)|(p & n & J & A & _ & B & C)]; [discriminate A|]. injection A as <- <-.
  assert (EJ : banquet_instance_get (Z.of_N 1) = Ok I1) by reflexivity. rewrite EJ in B. injection B as <-. destruct C as [[C _]|[_ C]]; [discriminate C|].
  destruct (C E1) as [X|(_ & j & _ & X)]; [exact X|exfalso]. destruct X as [X|(kp & K & X)].
  - destruct C01_case as (_ & _ & kp & EK & _). cbn [ex_env e_kf e_rng] in X. rewrite X in EK. discriminate EK.
  - destruct C01_case as (_ & _ & kp' & EK & S). cbn [ex_env e_kf e_rng e_garb e_fuel] in K, X. rewrite K in EK. injection EK as <-. destruct (S (fun _ => 0%N) None bench_msg) as [sig ES]. rewrite X in ES. discriminate ES.
Qed.
