(** The system calls of rand_bytes with /dev/urandom *)
From Coq Require Import Arith NArith ZArith List Bool Lia.
From Verif Require Import Prelude RandModel TraceSpec TraceModel.
Import ListNotations.

(** used_well, from the front *)
Fixpoint well (fds : list Z) (t : list syscall) : Prop :=
  length fds <= 1 /\ match t with [] => True | c :: t' => (forall fd, uses c = Some fd -> List.In fd fds) /\ well (after fds c) t' end.
Lemma well_at : forall t fds, well fds t -> forall a b, t = a ++ b -> length (fold_left after a fds) <= 1 /\ forall c b', b = c :: b' -> forall fd, uses c = Some fd -> List.In fd (fold_left after a fds).
Proof.
  induction t as [|c t IH]; intros fds H a b E.
  - destruct a; [|discriminate]. destruct b; [|discriminate]. split; [exact (proj1 H)|]. intros c b' Eb. discriminate.
  - destruct H as [H1 [H2 H3]]. destruct a as [|x a].
    + cbn [app] in E. subst b. split; [exact H1|]. intros c0 b' Eb. injection Eb as <- _. exact H2.
    + cbn [app] in E. injection E as <- E. cbn [fold_left]. exact (IH _ H3 a b E).
Qed.
Lemma well_used t : well [] t -> used_well t.
Proof. intros H a b E. exact (well_at t [] H a b E). Qed.
Lemma well_app : forall a b fds, well fds a -> well (fold_left after a fds) b -> well fds (a ++ b).
Proof.
  induction a as [|c a IH]; intros b fds H1 H2; [exact H2|]. cbn [app well fold_left] in *. destruct H1 as (A & B & C). split; [exact A|]. split; [exact B|]. apply IH; assumption.
Qed.
Lemma put_length dst pos d dst' : put dst pos d = Ok dst' -> length dst' = length dst.
Proof. unfold put. destruct (Nat.leb_spec (pos + length d) (length dst)) as [H|H]; [|discriminate]. intros E. injection E as <-. rewrite !app_length, firstn_length, skipn_length. lia. Qed.

Definition in_buffer (n : nat) (c : syscall) : Prop := match c with SRead _ pos len => pos + len = n | _ => True end.
Lemma open_ok o : forall fuel i t r, open_calls fuel o i = (t, r) ->
  well [] t /\ fold_left after t [] = match r with Ok (Some fd, _) => [fd] | _ => [] end /\ r = open_loop fuel o i /\ (forall n, Forall (in_buffer n) t) /\
  (forall a fd b, t = a ++ SOpen (OFd fd) :: b -> b = [] /\ exists j, r = Ok (Some fd, j)) .
Proof.
  induction fuel as [|fuel IH]; intros i t r E; cbn [open_calls open_loop] in *.
  - injection E as <- <-. repeat split; try (cbn; lia); auto. all: destruct a; discriminate.
  - destruct (os_open o i) as [[|]|fd] eqn:EO.
    + destruct (open_calls fuel o (S i)) as [t1 r1] eqn:E1. injection E as <- <-. destruct (IH _ _ _ E1) as (A & B & C & D & F). cbn [well fold_left after uses].
      split; [split; [cbn; lia|]; split; [discriminate|exact A]|]. split; [exact B|]. split; [exact C|]. split; [intros n; constructor; [exact I|apply D]|].
      intros a fd b Eab. destruct a as [|x a]; [discriminate|]. cbn [app] in Eab. injection Eab as _ Eab. exact (F a fd b Eab).
    + injection E as <- <-. cbn [well fold_left after uses]. split; [split; [cbn; lia|]; split; [discriminate|split; [cbn; lia|exact I]]|]. split; [reflexivity|]. split; [reflexivity|]. split; [intros n; repeat constructor|].
      intros a fd b Eab. destruct a as [|x [|y a]]; discriminate.
    + injection E as <- <-. cbn [well fold_left after uses]. split; [split; [cbn; lia|]; split; [discriminate|split; [cbn; lia|exact I]]|]. split; [reflexivity|]. split; [reflexivity|]. split; [intros n; repeat constructor|].
      intros a fd' b Eab. destruct a as [|x [|y a]]; [|discriminate|discriminate]. injection Eab as <- <-. split; [reflexivity|]. exists (S i). reflexivity.
Qed.
Definition no_open (c : syscall) : Prop := match c with SOpen _ => False | _ => True end.
Lemma read_ok o fd : forall fuel i dst pos t r, pos <= length dst -> read_calls fuel o fd i dst pos = (t, r) ->
  well [fd] t /\ fold_left after t [fd] = match r with Ok _ => [] | _ => [fd] end /\ r = read_loop fuel o i dst pos /\ Forall (in_buffer (length dst)) t /\ Forall no_open t.
Proof.
  assert (RM : remove Z.eq_dec fd [fd] = []) by (cbn [remove]; destruct (Z.eq_dec fd fd); [reflexivity|congruence]).
  assert (US : forall pos n fd', uses (SRead fd pos n) = Some fd' -> List.In fd' [fd]) by (intros p n fd' X; injection X as <-; left; reflexivity).
  assert (UC : forall fd', uses (SClose fd) = Some fd' -> List.In fd' [fd]) by (intros fd' X; injection X as <-; left; reflexivity).
  induction fuel as [|fuel IH]; intros i dst pos t r Hp E; cbn [read_calls read_loop] in *.
  - destruct (Nat.eqb_spec (length dst - pos) 0) as [Z|Z]; injection E as <- <-.
    + cbn [well fold_left after]. rewrite RM. repeat split; try (cbn; lia); try exact UC; repeat constructor.
    + repeat split; try (cbn; lia); constructor.
  - destruct (Nat.eqb_spec (length dst - pos) 0) as [Z|Z].
    + injection E as <- <-. cbn [well fold_left after]. rewrite RM. repeat split; try (cbn; lia); try exact UC; repeat constructor.
    + destruct (os_read o i (length dst - pos)) as [[|]|d] eqn:ER.
      * destruct (read_calls fuel o fd (S i) dst pos) as [t1 r1] eqn:E1. injection E as <- <-. destruct (IH _ _ _ _ _ Hp E1) as (A & B & C & D & F). cbn [well fold_left after].
        split; [split; [cbn; lia|]; split; [apply US|exact A]|]. split; [exact B|]. split; [exact C|]. split; [constructor; [cbn; lia|exact D]|constructor; [exact I|exact F]].
      * injection E as <- <-. cbn [well fold_left after]. rewrite RM. repeat split; try (cbn; lia); try apply US; try exact UC; repeat constructor. cbn. lia.
      * destruct (put dst pos d) as [dst'|e|u|] eqn:EP; cbn [bind].
        -- destruct (read_calls fuel o fd (S i) dst' (pos + length d)) as [t1 r1] eqn:E1. injection E as <- <-. pose proof (put_length _ _ _ _ EP) as L. assert (Hp' : pos + length d <= length dst') by (rewrite L; unfold put in EP; destruct (Nat.leb_spec (pos + length d) (length dst)); [lia|discriminate]).
           destruct (IH _ _ _ _ _ Hp' E1) as (A & B & C & D & F). rewrite L in D. cbn [well fold_left after]. split; [split; [cbn; lia|]; split; [apply US|exact A]|]. split; [exact B|]. split; [exact C|]. split; [constructor; [cbn; lia|exact D]|constructor; [exact I|exact F]].
        -- injection E as <- <-. cbn [well fold_left after]. repeat split; try (cbn; lia); try apply US; repeat constructor. cbn. lia.
        -- injection E as <- <-. cbn [well fold_left after]. repeat split; try (cbn; lia); try apply US; repeat constructor. cbn. lia.
        -- injection E as <- <-. cbn [well fold_left after]. repeat split; try (cbn; lia); try apply US; repeat constructor. cbn. lia.
Qed.
Lemma no_open_split t b : Forall no_open b -> forall a c fd, t ++ b = a ++ SOpen (OFd fd) :: c -> exists c', t = a ++ SOpen (OFd fd) :: c' /\ c = c' ++ b.
Proof.
  intros H. induction t as [|x t IH]; intros a c fd E.
  - cbn [app] in E. subst b. rewrite Forall_app in H. destruct H as [_ H]. inversion_clear H as [|? ? H1 H2]. contradiction H1.
  - destruct a as [|y a]; cbn [app] in E; injection E as E0 E.
    + subst x c. exists t. split; reflexivity.
    + subst y. destruct (IH a c fd E) as (c' & -> & ->). exists c'. split; reflexivity.
Qed.
Definition finished {A} (r : res A) : Prop := exists x, r = Ok x.
Theorem calls_ok linux cloexec flags fuel o i dst t r : urandom_calls linux cloexec flags fuel o i dst = (t, r) ->
  used_well t /\ (finished r -> open_after t = []) /\ Forall (in_buffer (length dst)) t /\
  (do (x, _) <- rand_urandom linux fuel o i dst; Ok x) = r /\
  (cloexec = false -> forall a fd b, t = a ++ SOpen (OFd fd) :: b -> exists v b', b = SGetFlags fd :: SSetFlags fd v :: b' /\ Z.testbit v 0 = true).
Proof.
  intros E. unfold urandom_calls, rand_urandom in *. destruct (open_calls fuel o i) as [t0 r0] eqn:E0. destruct (open_ok o fuel i t0 r0 E0) as (A & B & C & D & F). rewrite <- C. clear C E0. unfold open_after.
  destruct r0 as [[[fd|] j]|e|u|]; cbn [bind] in *.
  2-5: injection E as <- <-; split; [apply well_used; exact A|]; split; [intros _; exact B|]; split; [apply D|]; split; [reflexivity|]; intros _ a fd b Eab; destruct (F a fd b Eab) as [_ [k X]]; discriminate.
  set (fl := if cloexec then [] else [SGetFlags fd; SSetFlags fd (Z.lor flags 1)]) in *.
  assert (US : forall c, uses c = Some fd -> forall fd', uses c = Some fd' -> List.In fd' [fd]) by (intros c Hc fd' X; rewrite Hc in X; injection X as <-; left; reflexivity).
  assert (FW : well [fd] fl /\ fold_left after fl [fd] = [fd] /\ Forall (in_buffer (length dst)) fl /\ Forall no_open fl).
  { unfold fl. destruct cloexec; cbn [well fold_left after]; repeat split; try (cbn; lia); try (apply US; reflexivity); repeat constructor. }
  destruct FW as (FW & FA & FB & FO).
  assert (Q : forall t' r', (t, r) = ((t0 ++ fl) ++ t', r') -> well [fd] t' -> fold_left after t' [fd] = match r' with Ok _ => [] | _ => [fd] end -> Forall (in_buffer (length dst)) t' -> Forall no_open t' ->
    used_well t /\ (finished r -> fold_left after t [] = []) /\ Forall (in_buffer (length dst)) t /\
    (cloexec = false -> forall a fd b, t = a ++ SOpen (OFd fd) :: b -> exists v b', b = SGetFlags fd :: SSetFlags fd v :: b' /\ Z.testbit v 0 = true)).
  { intros t' r' X W1 W2 W3 W4. injection X as -> ->. split; [|split; [|split]].
    - apply well_used. rewrite <- app_assoc. apply well_app; [exact A|]. rewrite B. apply well_app; [exact FW|]. rewrite FA. exact W1.
    - intros [x ->]. rewrite !fold_left_app, B, FA. exact W2.
    - rewrite !Forall_app. split; [split; [apply D|exact FB]|exact W3].
    - intros HC a fd' b Eab. rewrite <- app_assoc in Eab. assert (NO : Forall no_open (fl ++ t')) by (rewrite Forall_app; split; assumption). destruct (no_open_split t0 _ NO a b fd' Eab) as (c' & Et & Eb).
      destruct (F a fd' c' Et) as [-> [k X]]. injection X as <- _. subst b. unfold fl. rewrite HC. exists (Z.lor flags 1), t'. split; [reflexivity|]. rewrite Z.lor_spec. apply orb_true_r. }
  assert (RJ : forall a1 a2 a3 a4 a5 : Prop, a1 /\ a2 /\ a3 /\ a5 -> a4 -> a1 /\ a2 /\ a3 /\ a4 /\ a5) by tauto.
  destruct linux; cbn [andb] in *.
  - destruct (os_entropy o j); cbn [negb].
    + destruct (read_calls fuel o fd (S j) dst 0) as [t1 r1] eqn:E1. destruct (read_ok o fd fuel (S j) dst 0 t1 r1 (Nat.le_0_l _) E1) as (A1 & B1 & C1 & D1 & F1). apply RJ.
      * apply (Q (SEntropy fd :: t1) r1); [symmetry; exact E| |exact B1|constructor; [exact I|exact D1]|constructor; [exact I|exact F1]]. split; [cbn; lia|]. split; [apply US; reflexivity|exact A1].
      * injection E as _ <-. rewrite <- C1. destruct r1 as [[? ?]| | |]; reflexivity.
    + apply RJ.
      * apply (Q [SEntropy fd; SClose fd] (Ok (false, dst, S j))); [symmetry; exact E| | |repeat constructor|repeat constructor].
        -- cbn [well after]. repeat split; try (cbn; lia); try (apply US; reflexivity). cbn [remove]. destruct (Z.eq_dec fd fd); cbn; lia.
        -- cbn [fold_left after remove]. destruct (Z.eq_dec fd fd); [reflexivity|congruence].
      * injection E as _ <-. reflexivity.
  - destruct (read_calls fuel o fd j dst 0) as [t1 r1] eqn:E1. destruct (read_ok o fd fuel j dst 0 t1 r1 (Nat.le_0_l _) E1) as (A1 & B1 & C1 & D1 & F1). apply RJ.
    * apply (Q t1 r1); [symmetry; exact E|exact A1|exact B1|exact D1|exact F1].
    * injection E as _ <-. rewrite <- C1. destruct r1 as [[? ?]| | |]; reflexivity.
Qed.
