(** The benchmark programs: parsing numerals and options, and what the iterations do (C65). *)
From Coq Require Import String Arith NArith ZArith List Bool Lia.
From Verif Require Import Prelude FieldModel Instances HashModel AesSpec AesBase AesApi AesShares BanquetModel BanquetPure BanquetCtx BanquetRun BanquetVerify Serialize BanquetApi SignFacts History FreeSpec FreeApi ToolModel ToolSpec.
Import ListNotations.

(** *** numbers *)
Lemma digit_bounds c : (48 <= c <= 57)%N -> is_digit c = true.
Proof. intros H. unfold is_digit. apply andb_true_iff. split; apply N.leb_le; lia. Qed.
Lemma digit_no_space c : (48 <= c <= 57)%N -> is_space c = false.
Proof. intros H. unfold is_space. rewrite (proj2 (N.leb_gt c 13)) by lia. rewrite andb_false_r. apply N.eqb_neq. lia. Qed.
Lemma digits_value rest : (match rest with [] => True | c :: _ => is_digit c = false end) -> forall s acc, Forall (fun c => 48 <= c <= 57)%N s ->
  digits (Z.of_N acc) (s ++ rest) = Z.of_N (fold_left (fun a c => 10 * a + (c - 48))%N s acc).
Proof.
  intros HR. induction s as [|c s IH]; intros acc F.
  - cbn [app fold_left]. destruct rest as [|c rest]; [reflexivity|]. cbn [digits]. rewrite HR. reflexivity.
  - inversion F as [|? ? F1 F2]. subst. cbn [app digits fold_left]. rewrite digit_bounds by exact F1. rewrite <- IH by exact F2. f_equal. lia.
Qed.
Lemma strtol_numeral e s n rest : numeral s n -> (match rest with [] => True | c :: _ => is_digit c = false end) ->
  strtol e (s ++ rest) = if (LONG_MAX <? Z.of_N n)%Z then (LONG_MAX, ERange) else (Z.of_N n, NoError).
Proof.
  intros (NE & F & EV) HR. destruct s as [|c s]; [congruence|]. inversion F as [|? ? F1 F2]. subst. unfold strtol. cbn [app skip_space]. rewrite digit_no_space by exact F1.
  rewrite (proj2 (N.eqb_neq c 45)) by lia. rewrite (proj2 (N.eqb_neq c 43)) by lia. rewrite digit_bounds by exact F1.
  change (c :: s ++ rest) with ((c :: s) ++ rest). change 0%Z with (Z.of_N 0). rewrite digits_value by assumption. set (v := fold_left _ (c :: s) 0%N).
  destruct (LONG_MAX <? Z.of_N v)%Z; [reflexivity|]. rewrite (proj2 (Z.ltb_ge (Z.of_N v) LONG_MIN)); [reflexivity|]. unfold LONG_MIN. lia.
Qed.
Lemma parse_numeral e s n rest : numeral s n -> (match rest with [] => True | c :: _ => is_digit c = false end) ->
  parse_uint32 e (s ++ rest) = if (n <? 4294967296)%N then Some n else None.
Proof.
  intros HN HR. unfold parse_uint32, parse_long. rewrite (strtol_numeral e s n rest HN HR). destruct (Z.ltb_spec LONG_MAX (Z.of_N n)) as [A|A]; cbn [orb].
  - rewrite Z.eqb_refl. cbn [orb]. rewrite (proj2 (N.ltb_ge n 4294967296)); [reflexivity|]. unfold LONG_MAX in A. lia.
  - rewrite (proj2 (Z.ltb_ge (Z.of_N n) 0)) by lia. cbn [orb]. rewrite N2Z.id. destruct (Z.ltb_spec 4294967295 (Z.of_N n)), (N.ltb_spec n 4294967296); try reflexivity; lia.
Qed.
Lemma parse_range e s n : parse_uint32 e s = Some n -> (n < 4294967296)%N.
Proof.
  unfold parse_uint32. destruct (parse_long e s) as [v|]; [|discriminate]. destruct (Z.ltb_spec v 0); [discriminate|]. destruct (Z.ltb_spec 4294967295 v); [discriminate|]. cbn [orb]. intros E. injection E as <-. lia.
Qed.
Lemma numeral_operand s n : numeral s n -> exists c t, s = c :: t /\ (48 <= c <= 57)%N.
Proof. intros (NE & F & _). destruct s as [|c s]; [congruence|]. inversion F. subst. exists c, s. auto. Qed.
Lemma getopt_operand posix s n args : numeral s n -> getopt posix (s :: args) = if posix then ([], s :: args) else (fst (getopt posix args), s :: snd (getopt posix args)).
Proof.
  intros HN. destruct (numeral_operand s n HN) as (c & t & -> & B). destruct t as [|c2 t]; cbn [getopt].
  - destruct posix; [reflexivity|]. destruct (getopt false args). reflexivity.
  - rewrite (proj2 (N.eqb_neq c 45)) by lia. destruct posix; [reflexivity|]. destruct (getopt false args). reflexivity.
Qed.
Lemma getopt_iter posix t n l args : numeral t n -> In l (iter_option t) -> getopt posix (l ++ args) = (OptI t :: fst (getopt posix args), snd (getopt posix args)).
Proof.
  intros HN HL. destruct (numeral_operand t n HN) as (c & t' & -> & B). destruct HL as [<-|[<-|[<-|[<-|[<-|[<-|[<-|[<-|[<-|[<-|[]]]]]]]]]]]; cbn; destruct (getopt posix args); reflexivity.
Qed.

(** *** parse_args *)
Lemma parse_args_table posix e args p n : parse_args posix e args = inr (p, n) -> (1 <= p <= 23)%N /\ (n < 4294967296)%N.
Proof.
  unfold parse_args. destruct (length args + 1 <=? 1); [discriminate|]. destruct (getopt posix args) as [os ops].
  assert (G : forall os m n, (m < 4294967296)%N -> scan e os m = inr n -> (n < 4294967296)%N).
  { clear. induction os as [|o os IH]; intros m n Hm; cbn [scan]; [intros E; injection E as <-; exact Hm|]. destruct o as [arg|]; [|discriminate].
    destruct (parse_uint32 e arg) as [v|] eqn:Ev; [|discriminate]. apply IH. exact (parse_range _ _ _ Ev). }
  destruct (scan e os 10) as [l|it] eqn:ES; [discriminate|]. destruct ops as [|a [|? ?]]; try discriminate. destruct (parse_uint32 e a) as [q|]; [|discriminate].
  destruct (N.leb_spec q 0); [discriminate|]. destruct (N.leb_spec 24 q); [discriminate|]. cbn [orb]. intros E. injection E as <- <-. split; [lia|]. exact (G os 10%N _ (eq_refl : (10 < 4294967296)%N) ES).
Qed.
Definition chosen (p n : N) : line + N * N :=
  if (n <? 4294967296)%N then if (p <? 4294967296)%N then if ((p <=? 0) || (24 <=? p))%N then inl LInvalidSet else inr (p, n) else inl LNotNumber else inl LNotNumber.
Lemma operand_only posix e s p rest : numeral s p -> (match rest with [] => True | c :: _ => is_digit c = false end) -> parse_args posix e [s ++ rest] = chosen p 10.
Proof.
  intros HN HR. unfold parse_args, chosen. cbn [length Nat.add Nat.leb].
  assert (G : getopt posix [s ++ rest] = ([], [s ++ rest])).
  { destruct (numeral_operand s p HN) as (c & t & -> & B). cbn [app getopt]. destruct (t ++ rest); [destruct posix; reflexivity|]. rewrite (proj2 (N.eqb_neq c 45)) by lia. destruct posix; reflexivity. }
  rewrite G. cbn [scan]. rewrite (parse_numeral e s p rest HN HR). change (10 <? 4294967296)%N with true. destruct (p <? 4294967296)%N; reflexivity.
Qed.
Lemma operand_last posix e s p t n l : numeral s p -> numeral t n -> In l (iter_option t) -> parse_args posix e (l ++ [s]) = chosen p n.
Proof.
  intros HS HT HL. unfold parse_args, chosen. rewrite (getopt_iter posix t n l [s] HT HL), (getopt_operand posix s p [] HS).
  replace (length (l ++ [s]) + 1 <=? 1) with false by (rewrite app_length; symmetry; apply Nat.leb_gt; cbn [length]; lia).
  replace (if posix then ([], [s]) else (fst (getopt posix []), s :: snd (getopt posix []))) with (@nil opt, [s]) by (destruct posix; reflexivity). cbn [fst snd scan].
  pose proof (parse_numeral e t n [] HT Logic.I) as PT. pose proof (parse_numeral e s p [] HS Logic.I) as PS. rewrite app_nil_r in PT, PS. rewrite PT. destruct (n <? 4294967296)%N; [|reflexivity]. rewrite PS. destruct (p <? 4294967296)%N; reflexivity.
Qed.
Lemma operand_first e s p t n l : numeral s p -> numeral t n -> In l (iter_option t) -> parse_args false e (s :: l) = chosen p n.
Proof.
  intros HS HT HL. unfold parse_args, chosen. rewrite (getopt_operand false s p l HS). cbn [length]. replace (S (length l) + 1 <=? 1) with false by (symmetry; apply Nat.leb_gt; lia).
  pose proof (getopt_iter false t n l [] HT HL) as G. rewrite app_nil_r in G. rewrite G. cbn [getopt fst snd scan].
  pose proof (parse_numeral e t n [] HT Logic.I) as PT. pose proof (parse_numeral e s p [] HS Logic.I) as PS. rewrite app_nil_r in PT, PS. rewrite PT. destruct (n <? 4294967296)%N; [|reflexivity]. rewrite PS. destruct (p <? 4294967296)%N; reflexivity.
Qed.

(** *** iterations *)
Lemma keygen_loop_total I c nk r : inst_ok I c nk -> rng_bytes r -> (forall j, length (snd (r j)) <= if Nat.even j then key_size (i_aes I) else pt_size I) ->
  forall fuel i key pt, Nat.even i = true -> str (key_size (i_aes I)) key -> str (pt_size I) pt -> keygen_loop fuel I r i key pt = OutOfFuel \/ exists kp, keygen_loop fuel I r i key pt = Ok kp.
Proof.
  intros OK HR HL. induction fuel as [|f IH]; intros i key pt Ev Hk Hp; [left; reflexivity|]. cbn [keygen_loop]. unfold rand_bytes.
  pose proof (HL i) as L1. rewrite Ev in L1. pose proof (HL (i + 1)) as L2. rewrite Nat.even_add, Ev in L2. cbn in L2.
  destruct (copy_into (snd (r i)) key) as [k1| | |] eqn:E1; [|exfalso; revert E1; unfold copy_into; rewrite (proj1 Hk), (proj2 (Nat.leb_le _ _) L1); discriminate..]. cbn [bind].
  destruct (copy_into (snd (r (i + 1))) pt) as [p1| | |] eqn:E2; [|exfalso; revert E2; unfold copy_into; rewrite (proj1 Hp), (proj2 (Nat.leb_le _ _) L2); discriminate..]. cbn [bind].
  apply (copy_into_str _ _ _ _ (HR i) Hk) in E1. apply (copy_into_str _ _ _ _ (HR (i + 1)) Hp) in E2.
  rewrite (aes_plain_ok I c nk _ _ OK E1 E2). cbn [bind]. destruct (aes_n nk k1 p1) as [ct|]; [right; eexists; reflexivity|]. apply IH; try assumption. rewrite Nat.even_add, Ev. reflexivity.
Qed.
Lemma iteration_ok H E I c nk i st : inst_ok I c nk -> env_ok E I ->
  (iteration H E I i st = OutOfFuel /\ still_running H E I i) \/ exists st', iteration H E I i st = Ok (st', sig_size I, true).
Proof.
  intros OK (HE & Hf). destruct (HE i) as [HR HL]. unfold iteration, still_running.
  destruct (keygen_loop_total I c nk (e_rng E i) OK HR HL (e_kf E) 0 _ _ eq_refl (str_zeros (key_size (i_aes I))) (str_zeros (pt_size I))) as [EK|[kp EK]]; change (keygen_loop (e_kf E) I (e_rng E i) 0 (zeros (key_size (i_aes I))) (zeros (pt_size I))) with (keygen (e_kf E) I (e_rng E i)) in EK.
  - left. rewrite EK. split; [reflexivity|]. left. reflexivity.
  - destruct (keygen_ok I c nk _ _ kp OK HR EK) as (key & pt & ct & -> & Hk & Hp & Hct). rewrite EK. cbn [bind].
    pose proof (sign_total H I c nk OK key pt ct Hk Hp Hct (e_fuel E) (e_garb E i 0) st bench_msg) as T.
    destruct (sign H (e_fuel E) (e_garb E i 0) st I (key, pt ++ ct) bench_msg) as [st' s] eqn:ES. cbn [snd] in T. destruct T as [[-> _]|[sig ->]].
    + left. split; [reflexivity|]. right. exists (key, pt ++ ct). split; [reflexivity|]. rewrite (sign_state H _ _ None st), ES. reflexivity.
    + right. cbn [bind]. destruct (sign_transport H I c nk OK key pt ct Hk Hp Hct _ _ _ _ _ _ ES) as (ser & A & L & B). rewrite A. cbn [bind]. rewrite (B _ _ (le_n _)). cbn [bind].
      pose proof (sign_accepted H I c nk OK key pt ct Hk Hp Hct _ _ _ _ _ _ ES (e_fuel E) (e_garb E i 2) st' (le_n _)) as V. cbn [snd]. destruct (verify H (e_fuel E) (e_garb E i 2) st' I (pt ++ ct) sig bench_msg) as [st2 v]. cbn [snd] in V. subst v. cbn [bind]. rewrite L. exists st2. reflexivity.
Qed.
Lemma iterations_ok H E I c nk : inst_ok I c nk -> env_ok E I -> forall n i st,
  (iterations H E I n i st = OutOfFuel /\ exists j, i <= j < i + n /\ still_running H E I j) \/ iterations H E I n i st = Ok (repeat (sig_size I) n, []).
Proof.
  intros OK HE. induction n as [|n IH]; intros i st; [right; reflexivity|]. cbn [iterations]. destruct (iteration_ok H E I c nk i st OK HE) as [[-> S]|[st' ->]].
  - left. split; [reflexivity|]. exists i. split; [lia|exact S].
  - cbn [bind]. destruct (IH (S i) st') as [[-> (j & Hj & S)]| ->]; [left|right; reflexivity]. split; [reflexivity|]. exists j. split; [lia|exact S].
Qed.
Lemma sig_size_row I c nk : inst_ok I c nk -> sig_size I = row_size I.
Proof.
  intros OK. unfold sig_size, row_size, proof_size. change SALT_SIZE with 32. rewrite ceil_log2_nat_spec; [lia|pose proof (n_pos I c _ OK); lia|]. apply (N.lt_trans _ 65536); [exact (io_N _ _ _ OK)|reflexivity].
Qed.
Lemma map_repeat {A B} (f : A -> B) x n : map f (repeat x n) = repeat (f x) n.
Proof. induction n as [|n IH]; [reflexivity|]. cbn. rewrite IH. reflexivity. Qed.
Lemma measure_ok H E I c nk iter : inst_ok I c nk -> env_ok E I ->
  (measure H E I iter = OutOfFuel /\ exists j, j < N.to_nat iter /\ still_running H E I j) \/ measure H E I iter = Ok (LHeader :: repeat (LRow (row_size I)) (N.to_nat iter)).
Proof.
  intros OK HE. unfold measure. destruct (iterations_ok H E I c nk OK HE (N.to_nat iter) 0 None) as [[-> (j & Hj & S)]| ->].
  - left. split; [reflexivity|]. exists j. split; [lia|exact S].
  - right. cbn [bind app]. rewrite map_repeat, (sig_size_row I c nk OK). reflexivity.
Qed.

(** *** the programs *)
Lemma bench_run timer posix e H E args :
  (exists l, parse_args posix e args = inl l /\ bench timer posix e H E args = Ok ((-1)%Z, [l])) \/
  exists p n J, parse_args posix e args = inr (p, n) /\ (1 <= p <= 23)%N /\ banquet_instance_get (Z.of_N p) = Ok J /\
    ((timer = false /\ bench timer posix e H E args = Ok (0%Z, [LTimer])) \/
     (timer = true /\ (env_ok E J ->
       bench timer posix e H E args = Ok (0%Z, instance_line J :: LHeader :: repeat (LRow (row_size J)) (N.to_nat n)) \/
       bench timer posix e H E args = OutOfFuel /\ exists j, j < N.to_nat n /\ still_running H E J j))).
Proof.
  unfold bench. destruct (parse_args posix e args) as [l|[p n]] eqn:EP; [left; exists l; auto|right]. destruct (parse_args_table _ _ _ _ _ EP) as [Hp _].
  assert (HJ : exists J, banquet_instance_get (Z.of_N p) = Ok J).
  { unfold banquet_instance_get, PARAMETER_SET_INVALID, PARAMETER_SET_MAX_INDEX. destruct (Z.leb_spec (Z.of_N p) 0); [lia|]. destruct (Z.leb_spec 24 (Z.of_N p)); [lia|]. cbn [orb].
    unfold get. destruct (nth_error instances (Z.to_nat (Z.of_N p))) eqn:EN; [eexists; reflexivity|]. exfalso. revert EN. apply nth_error_Some. change (length instances) with 24. lia. }
  destruct HJ as [J HJ]. exists p, n, J. split; [reflexivity|]. split; [exact Hp|]. split; [exact HJ|]. destruct timer; cbn [negb]; [right|left; auto]. split; [reflexivity|]. intros HE. rewrite HJ. cbn [bind].
  destruct (builtin_inst_ok J (ex_intro _ _ HJ)) as [c OK]. destruct (measure_ok H E J c _ n OK HE) as [[-> S]| ->]; [right; auto|left; reflexivity].
Qed.

(** *** bench_free *)
Lemma free_numbers e : forall ss ns k rest, Forall2 numeral ss ns -> k = length ss ->
  next_numbers e k (ss ++ rest) = Ok (if forallb (fun n => n <? 4294967296)%N ns then Some ns else None).
Proof.
  induction ss as [|s ss IH]; intros ns k rest F ->; inversion F; subst; [reflexivity|]. cbn [length next_numbers app next_number bind].
  pose proof (parse_numeral e s y [] ltac:(assumption) Logic.I) as P. rewrite app_nil_r in P. rewrite P. cbn [forallb]. destruct (y <? 4294967296)%N; [|reflexivity]. cbn [andb].
  rewrite (IH l') by auto. cbn [bind]. destruct (forallb (fun n => (n <? 4294967296)%N) l'); reflexivity.
Qed.
Lemma free_short e : forall ss ns k, Forall2 numeral ss ns -> forallb (fun n => n <? 4294967296)%N ns = true -> length ss < k -> next_numbers e k ss = UB OutOfBounds.
Proof.
  induction ss as [|s ss IH]; intros ns k F B L; (destruct k as [|k]; [cbn in L; lia|]); inversion F; subst; [reflexivity|]. cbn [next_numbers next_number bind].
  pose proof (parse_numeral e s y [] ltac:(assumption) Logic.I) as P. rewrite app_nil_r in P. rewrite P. cbn [forallb] in B. apply andb_true_iff in B. destruct B as [B1 B2]. rewrite B1. rewrite (IH l') by (auto; cbn in L; lia). reflexivity.
Qed.
Lemma getopt_operands posix : forall ss ns, Forall2 numeral ss ns -> getopt posix ss = ([], ss).
Proof.
  induction ss as [|s ss IH]; intros ns F; inversion F; subst; [reflexivity|]. rewrite (getopt_operand posix s y ss) by assumption. rewrite (IH l') by assumption. destruct posix; reflexivity.
Qed.
Lemma forall2_len {A B} (R : A -> B -> Prop) l l' : Forall2 R l l' -> length l = length l'.
Proof. induction 1; cbn; congruence. Qed.
Lemma free_parse posix e l t it ss kappa n tau a b lam rest : numeral t it -> (it < 4294967296)%N -> In l (iter_option t) -> Forall2 numeral ss [kappa; n; tau; a; b; lam] ->
  Forall (fun v => v < 4294967296)%N [kappa; n; tau; a; b; lam] -> Forall (fun s => exists v, numeral s v) rest ->
  parse_args_free posix e (l ++ ss ++ rest) = Ok (inr (mkOptions it kappa n tau a b lam)).
Proof.
  intros HT Hit HL HS HB HR. assert (HR' : exists vs, Forall2 numeral rest vs).
  { clear - HR. induction HR as [|s rest [v Hv] _ [vs IH]]; [exists []; constructor|]. exists (v :: vs). constructor; assumption. }
  destruct HR' as [vs HR']. unfold parse_args_free. rewrite (getopt_iter posix t it l _ HT HL), (getopt_operands posix (ss ++ rest) ([kappa; n; tau; a; b; lam] ++ vs)) by (apply Forall2_app; assumption).
  pose proof (forall2_len _ _ _ HS) as L6. cbn [length] in L6. replace (length (l ++ ss ++ rest) + 1 <=? 6) with false by (symmetry; apply Nat.leb_gt; rewrite !app_length, L6; destruct HL as [<-|[<-|[<-|[<-|[<-|[<-|[<-|[<-|[<-|[<-|[]]]]]]]]]]]; cbn [length]; lia).
  cbn [fst snd scan]. pose proof (parse_numeral e t it [] HT Logic.I) as PT. rewrite app_nil_r in PT. rewrite PT, (proj2 (N.ltb_lt _ _) Hit).
  rewrite (free_numbers e ss [kappa; n; tau; a; b; lam] 6 rest HS (eq_sym L6)). replace (forallb (fun v => (v <? 4294967296)%N) [kappa; n; tau; a; b; lam]) with true; [reflexivity|].
  symmetry. apply forallb_forall. intros v Hv. apply N.ltb_lt. exact (proj1 (Forall_forall _ _) HB v Hv).
Qed.
Lemma free_parse_ten posix e ss kappa n tau a b lam rest : Forall2 numeral ss [kappa; n; tau; a; b; lam] ->
  Forall (fun v => v < 4294967296)%N [kappa; n; tau; a; b; lam] -> Forall (fun s => exists v, numeral s v) rest ->
  parse_args_free posix e (ss ++ rest) = Ok (inr (mkOptions 10 kappa n tau a b lam)).
Proof.
  intros HS HB HR. assert (HR' : exists vs, Forall2 numeral rest vs).
  { clear - HR. induction HR as [|s rest [v Hv] _ [vs IH]]; [exists []; constructor|]. exists (v :: vs). constructor; assumption. }
  destruct HR' as [vs HR']. unfold parse_args_free. rewrite (getopt_operands posix (ss ++ rest) ([kappa; n; tau; a; b; lam] ++ vs)) by (apply Forall2_app; assumption).
  pose proof (forall2_len _ _ _ HS) as L6. cbn [length] in L6. replace (length (ss ++ rest) + 1 <=? 6) with false by (symmetry; apply Nat.leb_gt; rewrite !app_length, L6; lia).
  cbn [scan]. rewrite (free_numbers e ss [kappa; n; tau; a; b; lam] 6 rest HS (eq_sym L6)). replace (forallb (fun v => (v <? 4294967296)%N) [kappa; n; tau; a; b; lam]) with true; [reflexivity|].
  symmetry. apply forallb_forall. intros v Hv. apply N.ltb_lt. exact (proj1 (Forall_forall _ _) HB v Hv).
Qed.
Lemma free_missing timer posix e H E junk l t it ss ns : numeral t it -> (it < 4294967296)%N -> In l (iter_option t) -> Forall2 numeral ss ns ->
  Forall (fun v => v < 4294967296)%N ns -> length ss < 6 -> 6 <= length l + length ss -> bench_free timer posix e H E junk (l ++ ss) = UB OutOfBounds.
Proof.
  intros HT Hit HL HS HB L1 L2. unfold bench_free, parse_args_free. rewrite (getopt_iter posix t it l _ HT HL), (getopt_operands posix ss ns HS).
  replace (length (l ++ ss) + 1 <=? 6) with false by (symmetry; apply Nat.leb_gt; rewrite app_length; lia).
  cbn [fst snd scan]. pose proof (parse_numeral e t it [] HT Logic.I) as PT. rewrite app_nil_r in PT. rewrite PT, (proj2 (N.ltb_lt _ _) Hit).
  rewrite (free_short e ss ns 6 HS); [reflexivity| |exact L1]. apply forallb_forall. intros v Hv. apply N.ltb_lt. exact (proj1 (Forall_forall _ _) HB v Hv).
Qed.
(** the run, once the arguments are parsed *)
Lemma free_run posix e H E junk args o : parse_args_free posix e args = Ok (inr o) -> proper (fst (free_instance junk o)) -> near_power (num_parties (fst (free_instance junk o))) ->
  env_ok E (fst (free_instance junk o)) ->
  let I := fst (free_instance junk o) in let ls := snd (free_instance junk o) ++ [instance_line I] in
  bench_free true posix e H E junk args = Ok (0%Z, ls ++ LHeader :: repeat (LRow (row_size I)) (N.to_nat (o_iter o))) \/
  bench_free true posix e H E junk args = OutOfFuel /\ exists j, j < N.to_nat (o_iter o) /\ still_running H E I j.
Proof.
  intros EP P NP HE I ls. unfold bench_free. rewrite EP. cbn [bind negb]. subst ls. revert P NP HE. subst I.
  assert (EM : m1 (fst (free_instance junk o)) = N.to_nat (o_m1 o) /\ m2 (fst (free_instance junk o)) = N.to_nat (o_m2 o)) by (split; reflexivity).
  destruct (free_instance junk o) as [I ls]. cbn [fst snd] in *. intros P NP HE. destruct EM as [E1 E2].
  assert (EQ : ((o_m1 o * o_m2 o) mod 2 ^ 32 =? N.of_nat (num_sboxes (i_aes I)))%N = true).
  { pose proof (pr_sboxes _ P) as X. rewrite E1, E2 in X. assert (Y : (o_m1 o * o_m2 o)%N = N.of_nat (num_sboxes (i_aes I))) by (apply N2Nat.inj; rewrite N2Nat.inj_mul, X, Nat2N.id; reflexivity).
    rewrite Y. apply N.eqb_eq. apply N.mod_small. destruct (pr_aes _ P) as [<-|[<-|[<-|[]]]]; reflexivity. }
  rewrite EQ. cbn [negb]. destruct (proper_ok I P NP) as [c OK]. destruct (measure_ok H E I c _ (o_iter o) OK HE) as [[-> S]| ->]; [right; auto|left; reflexivity].
Qed.
