(** The share evaluation of AesModel: it never leaves its buffers, it is additive in the shares, and on the
    recorded inverses it reproduces the plain evaluation. *)
From Coq Require Import Arith NArith List Bool Lia Btauto.
From Verif Require Import Prelude Clmul Gf8 AesSpec AesModel AesBase AesKs AesPlain AesApi.
Import ListNotations.
Local Open Scope N_scope.

(** ** Pure versions, consuming the t bytes from the front *)
Definition kg (a rc : N) (tc : bytes) : bytes :=
  match map affine_lin tc with
  | b0 :: r => N.lxor (N.lxor b0 a) rc :: map (fun b => N.lxor b a) r
  | [] => []
  end.
Definition place (dst : nat) (w : bytes) : reg := zeros dst ++ w ++ zeros (12 - dst).
Definition Rt (first : bool) (t : bytes) : reg :=
  map (fun b => N.lxor (affine_lin b) (aff first)) (shuffle_epi8 t t_shuf).

Fixpoint p128 (first : bool) (key : reg) (rcs : list N) (t : bytes) : list reg * bytes :=
  match rcs with
  | [] => ([key], [])
  | rc :: rcs' =>
    let g := place 12 (kg (aff first) (rc_of first rc) (firstn 4 t)) in
    let '(ks, out) := p128 first (aes_128_key_expansion key g) rcs' (skipn 4 t) in
    (key :: ks, rotword (dword key 3) ++ out)
  end.
Fixpoint p192 (first : bool) (t1 t3 : reg) (rcs : list (N * N)) (t : bytes) : list reg * bytes :=
  match rcs with
  | [] => ([t1], [])
  | (ra, rb) :: rcs' =>
    let '(u1, u3) := KEY_192_ASSIST t1 (place 4 (kg (aff first) (rc_of first ra) (firstn 4 t))) t3 in
    let '(w1, w3) := KEY_192_ASSIST u1 (place 4 (kg (aff first) (rc_of first rb) (firstn 4 (skipn 4 t)))) u3 in
    let '(ks, out) := p192 first w1 w3 rcs' (skipn 4 (skipn 4 t)) in
    (t1 :: shuffle_pd0 t3 u1 :: shuffle_pd1 u1 u3 :: ks,
     rotword (dword t3 1) ++ rotword (dword u3 1) ++ out)
  end.
Fixpoint p256 (first : bool) (t1 t3 : reg) (rcs : list N) (t : bytes) : list reg * bytes :=
  match rcs with
  | [] => ([t1; t3; KEY_256_ASSIST_1 t1 (place 12 (kg (aff first) (rc_of first 0x40) (firstn 4 t)))],
           rotword (dword t3 3))
  | rc :: rcs' =>
    let u1 := KEY_256_ASSIST_1 t1 (place 12 (kg (aff first) (rc_of first rc) (firstn 4 t))) in
    let u3 := KEY_256_ASSIST_2 (place 8 (kg (aff first) 0 (firstn 4 (skipn 4 t)))) t3 in
    let '(ks, out) := p256 first u1 u3 rcs' (skipn 4 (skipn 4 t)) in
    (t1 :: t3 :: ks, rotword (dword t3 3) ++ dword u1 3 ++ out)
  end.
Fixpoint prounds (first : bool) (m : reg) (ks : list reg) (t : bytes) : reg * bytes :=
  match ks with
  | [] => (m, [])
  | [k] => (xorl (Rt first (firstn 16 t)) k, rows m)
  | k :: ks' =>
    let '(c, out) := prounds first (xorl (aesimc (aesimc (aesimc (Rt first (firstn 16 t))))) k) ks' (skipn 16 t) in
    (c, rows m ++ out)
  end.
Definition pblock (first : bool) (pt : bytes) (ks : list reg) (t : bytes) : reg * bytes :=
  match ks with
  | [] => ([], [])
  | k0 :: ks' => prounds first (xorl (if first then pt else zeros 16) k0) ks' t
  end.
Definition P128 (first : bool) (key t pt : bytes) : bytes * bytes :=
  let '(ks, o) := p128 first key rcons128 t in
  let '(c, o1) := pblock first pt ks (skipn 40 t) in
  (c, o ++ o1).
Definition P192 (first : bool) (key t pt : bytes) : bytes * bytes :=
  let '(ks, o) := p192 first (lo192 key) (hi192 key) rcons192 t in
  let '(c0, o0) := pblock first (firstn 16 pt) ks (skipn 32 t) in
  let '(c1, o1) := pblock first (skipn 16 pt) ks (skipn 192 (skipn 32 t)) in
  (c0 ++ c1, o ++ o0 ++ o1).
Definition P256 (first : bool) (key t pt : bytes) : bytes * bytes :=
  let '(ks, o) := p256 first (firstn 16 key) (skipn 16 key) rcons256 t in
  let '(c0, o0) := pblock first (firstn 16 pt) ks (skipn 52 t) in
  let '(c1, o1) := pblock first (skipn 16 pt) ks (skipn 224 (skipn 52 t)) in
  (c0 ++ c1, o ++ o0 ++ o1).

(** ** The model computes the pure versions *)
Lemma firstn_exact {A} (a b : list A) : firstn (length a) (a ++ b) = a.
Proof. rewrite firstn_app, Nat.sub_diag, firstn_O, app_nil_r. apply firstn_all. Qed.
Lemma skipn_exact {A} (a b : list A) : skipn (length a) (a ++ b) = b.
Proof. rewrite skipn_app, Nat.sub_diag, skipn_all. reflexivity. Qed.
Lemma skipn_plus {A} n m (l : list A) : skipn (n + m) l = skipn m (skipn n l).
Proof.
  revert l; induction n; intros; cbn [Nat.add skipn]; [reflexivity|].
  destruct l; [destruct m; reflexivity|apply IHn].
Qed.
Lemma write_ok d z w idx : length d = idx -> (length w <= length z)%nat ->
  write (d ++ z) idx w = Ok ((d ++ w) ++ skipn (length w) z).
Proof.
  intros <- Hw. unfold write. rewrite app_length.
  destruct (Nat.leb_spec (length d + length w) (length d + length z)); [|lia].
  rewrite firstn_exact, skipn_plus, skipn_exact, app_assoc. reflexivity.
Qed.
Lemma get_app {A} (p c : list A) x idx : length p = idx -> get (p ++ x :: c) idx = Ok x.
Proof. intros <-. unfold get. rewrite nth_error_app2, Nat.sub_diag by lia. reflexivity. Qed.
Lemma read_app {A} (p c : list A) idx n : length p = idx -> (n <= length c)%nat -> read (p ++ c) idx n = Ok (firstn n c).
Proof.
  intros <- Hn. unfold read, slice. rewrite app_length, skipn_exact.
  destruct (Nat.leb_spec (length p + n) (length p + length c)); [reflexivity|lia].
Qed.

Lemma restore_byte_ok tp x tc m src d z : length tp = length d -> z <> [] ->
  restore_byte (tp ++ x :: tc) m src (length d, d ++ z) =
  Ok (affine_lin x, (length (d ++ [extract_epi8 m src]), (d ++ [extract_epi8 m src]) ++ skipn 1 z)).
Proof.
  intros Hl Hz. unfold restore_byte.
  rewrite write_ok by (reflexivity || (destruct z; [congruence|cbn; lia])). cbn [bind].
  rewrite get_app by assumption. cbn [bind]. do 2 f_equal. rewrite app_length. cbn [length]. f_equal. lia.
Qed.

Definition fits (n : nat) (tc z : bytes) : Prop := (n <= length tc)%nat /\ (n <= length z)%nat /\ is_bytes tc.
Lemma fits_skip n m tc z : fits (n + m) tc z -> fits m (skipn n tc) (skipn n z).
Proof. intros (H1 & H2 & H3). split; [|split]; rewrite ?skipn_length; try lia. apply is_bytes_skipn; assumption. Qed.
Lemma fits_le n m tc z : (m <= n)%nat -> fits n tc z -> fits m tc z.
Proof. intros Hm (H1 & H2 & H3). split; [|split]; try lia. assumption. Qed.

Definition srcs_of (m : reg) (srcs : list nat) : bytes := map (extract_epi8 m) srcs.
Lemma key_exp_restore_ok tp tc m i0 i1 i2 i3 dst a rc d z :
  length tp = length d -> fits 4 tc z -> a < 256 -> rc < 256 ->
  (dst = 4 \/ dst = 8 \/ dst = 12)%nat ->
  key_exp_restore (tp ++ tc) m [i0;i1;i2;i3] dst a rc (length d, d ++ z) =
  Ok (place dst (kg a rc (firstn 4 tc)),
      (length (d ++ srcs_of m [i0;i1;i2;i3]), (d ++ srcs_of m [i0;i1;i2;i3]) ++ skipn 4 z)).
Proof.
  intros Hl (H1 & H2 & H3) Ha Hr Hd.
  destruct tc as [|x0 [|x1 [|x2 [|x3 tc]]]]; cbn [length] in H1; try lia.
  destruct z as [|z0 [|z1 [|z2 [|z3 z]]]]; cbn [length] in H2; try lia.
  unfold key_exp_restore. cbn [nth].
  rewrite restore_byte_ok by (congruence || assumption). cbn [bind skipn].
  set (d0 := d ++ [extract_epi8 m i0]).
  replace (tp ++ x0 :: x1 :: x2 :: x3 :: tc) with ((tp ++ [x0]) ++ x1 :: x2 :: x3 :: tc) by (rewrite <- app_assoc; reflexivity).
  rewrite restore_byte_ok by (try congruence; unfold d0; rewrite !app_length, Hl; reflexivity). cbn [bind skipn].
  set (d1 := d0 ++ [extract_epi8 m i1]).
  replace ((tp ++ [x0]) ++ x1 :: x2 :: x3 :: tc) with ((tp ++ [x0; x1]) ++ x2 :: x3 :: tc) by (rewrite <- !app_assoc; reflexivity).
  rewrite restore_byte_ok by (try congruence; unfold d1, d0; rewrite !app_length, Hl; cbn [length]; lia). cbn [bind skipn].
  set (d2 := d1 ++ [extract_epi8 m i2]).
  replace ((tp ++ [x0; x1]) ++ x2 :: x3 :: tc) with ((tp ++ [x0; x1; x2]) ++ x3 :: tc) by (rewrite <- !app_assoc; reflexivity).
  rewrite restore_byte_ok by (try congruence; unfold d2, d1, d0; rewrite !app_length, Hl; cbn [length]; lia). cbn [bind skipn].
  unfold d2, d1, d0. rewrite <- !app_assoc. cbn [app srcs_of map].
  inversion H3 as [|? ? B0 H3']; inversion H3' as [|? ? B1 H3'']; inversion H3'' as [|? ? B2 H3''']; inversion H3''' as [|? ? B3 _]; subst.
  pose proof (affine_lin_lt x0 B0). pose proof (affine_lin_lt x1 B1). pose proof (affine_lin_lt x2 B2). pose proof (affine_lin_lt x3 B3).
  unfold kg. cbn [firstn map].
  unfold insert_epi8. rewrite !land_ff by (repeat first [assumption | apply byte_lxor]).
  do 2 f_equal. destruct Hd as [->|[->| ->]]; reflexivity.
Qed.

Lemma Rt_ok first t : reg_ok t -> reg_ok (Rt first t).
Proof.
  intros H. unfold Rt. apply reg_map; [|apply reg_shuffle_epi8; [reflexivity|assumption]].
  intros x Hx. apply byte_lxor; [apply affine_lin_lt; assumption|destruct first; reflexivity].
Qed.
Lemma xorl_map (f g : N -> N) (l : bytes) : xorl (map f l) (map g l) = map (fun x => N.lxor (f x) (g x)) l.
Proof. induction l; simpl; auto; f_equal; auto. Qed.
Lemma rotl8_lt x k : x < 256 -> 1 <= k -> k < 8 -> rotl8 x k < 256.
Proof.
  intros Hx H1 H8. unfold rotl8.
  assert (A : N.lor (N.land (N.shiftl x k) 255) (N.shiftr x (8 - k)) < 2 ^ 8); [|exact A].
  destruct (N.eq_dec (N.lor (N.land (N.shiftl x k) 255) (N.shiftr x (8 - k))) 0) as [->|Hn]; [reflexivity|].
  apply N.log2_lt_pow2; [lia|].
  destruct (N.lt_ge_cases (N.log2 (N.lor (N.land (N.shiftl x k) 255) (N.shiftr x (8 - k)))) 8) as [|G]; [assumption|].
  pose proof (N.bit_log2 _ Hn) as Hb.
  rewrite N.lor_spec, N.land_spec, N.shiftr_spec' in Hb.
  rewrite (testbit_high 255) in Hb by (reflexivity || assumption).
  rewrite (testbit_high x) in Hb by (assumption || lia).
  rewrite andb_false_r in Hb. discriminate.
Qed.
Lemma restore_t_ok first tp tc m d z : length tp = length d -> fits 16 tc z -> length m = 16%nat ->
  restore_t_shares first (tp ++ tc) m (length d, d ++ z) =
  Ok (Rt first (firstn 16 tc), (length (d ++ rows m), (d ++ rows m) ++ skipn 16 z)).
Proof.
  intros Hl (H1 & H2 & H3) Hm. unfold restore_t_shares.
  assert (Er : shuffle_epi8 m s_shuf = rows m) by reflexivity. rewrite Er.
  assert (Lr : length (rows m) = 16%nat) by (unfold rows; rewrite map_length, seq_length; reflexivity).
  rewrite write_ok by (reflexivity || (rewrite Lr; assumption)). cbn [bind].
  rewrite read_app by assumption. cbn [bind]. rewrite Lr.
  assert (Ht : reg_ok (firstn 16 tc)) by (split; [rewrite firstn_length; lia|apply is_bytes_firstn; assumption]).
  set (mm := shuffle_epi8 (firstn 16 tc) t_shuf).
  assert (Hmm : reg_ok mm) by (apply reg_shuffle_epi8; [reflexivity|assumption]).
  rewrite app_length, Lr. do 2 f_equal. unfold xor128.
  rewrite !(rotl_epi8_map mm) by (assumption || lia). rewrite xorl_map.
  rewrite rotl_epi8_map;
    [|apply reg_map; [|assumption]; intros; apply byte_lxor; apply rotl8_lt; (assumption || lia)|lia..].
  rewrite map_map, xorl_map.
  assert (Em : forall l, is_bytes l -> xorl (map (fun x => N.lxor (N.lxor (rotl8 x 1) (rotl8 x 3)) (rotl8 (N.lxor (rotl8 x 1) (rotl8 x 3)) 1)) l) l
               = map affine_lin l).
  { induction 1 as [|x l Hx Hxl IH]; [reflexivity|]. cbn [map xorl]. rewrite IH, rotl_lin by assumption. reflexivity. }
  rewrite Em by apply Hmm. unfold Rt. fold mm.
  destruct first.
  - assert (R : forall l n, length l = n -> xorl (map affine_lin l) (repeat AFFINE_CONST n) = map (fun b => N.lxor (affine_lin b) (aff true)) l).
    { induction l; intros n E; destruct n; try discriminate; cbn [map repeat xorl]; auto; f_equal; auto. }
    rewrite (R mm 16%nat) by apply Hmm. reflexivity.
  - apply map_ext. intros. unfold aff. rewrite N.lxor_0_r. reflexivity.
Qed.

Lemma aff_lt b : aff b < 256. Proof. destruct b; reflexivity. Qed.
Lemma rc_of_lt b rc : rc < 256 -> rc_of b rc < 256. Proof. destruct b; cbn; auto; reflexivity. Qed.
Lemma kg_bytes a rc tc : is_bytes tc -> a < 256 -> rc < 256 -> is_bytes (kg a rc tc).
Proof.
  intros H Ha Hr. unfold kg. destruct H as [|x tc Hx H]; cbn [map]; [constructor|].
  constructor; [repeat first [assumption | apply affine_lin_lt; assumption | apply byte_lxor]|].
  induction H; cbn [map]; constructor; auto. apply byte_lxor; [apply affine_lin_lt|]; assumption.
Qed.
Lemma kg_length a rc tc : length (kg a rc tc) = length tc.
Proof. destruct tc; cbn; auto. rewrite !map_length. reflexivity. Qed.
Lemma reg_place dst w : (dst <= 12)%nat -> length w = 4%nat -> is_bytes w -> reg_ok (place dst w).
Proof.
  intros Hd Hw Hb. unfold place. split.
  - unfold zeros. rewrite !app_length, !repeat_length. lia.
  - repeat apply is_bytes_app; try apply is_bytes_zeros; assumption.
Qed.
Lemma reg_place_kg dst first rc tc : (dst <= 12)%nat -> (4 <= length tc)%nat -> is_bytes tc -> rc < 256 ->
  reg_ok (place dst (kg (aff first) (rc_of first rc) (firstn 4 tc))).
Proof.
  intros. apply reg_place; [assumption|rewrite kg_length, firstn_length; lia|].
  apply kg_bytes; [apply is_bytes_firstn; assumption|apply aff_lt|apply rc_of_lt; assumption].
Qed.

Lemma rotword_length w : length (rotword w) = length w.
Proof. destruct w; cbn; auto. rewrite app_length. cbn. lia. Qed.
Lemma srcs3 m : length m = 16%nat -> srcs_of m [13;14;15;12]%nat = rotword (dword m 3).
Proof. intros H. dlist m H. reflexivity. Qed.
Lemma srcs3' m : length m = 16%nat -> srcs_of m [12;13;14;15]%nat = dword m 3.
Proof. intros H. dlist m H. reflexivity. Qed.
Lemma srcs1 m : length m = 16%nat -> srcs_of m [5;6;7;4]%nat = rotword (dword m 1).
Proof. intros H. dlist m H. reflexivity. Qed.

Lemma app_split {A} n (p c : list A) : p ++ c = (p ++ firstn n c) ++ skipn n c.
Proof. rewrite <- app_assoc, firstn_skipn. reflexivity. Qed.

Lemma AES_128_ker_ok first tp tc m rc d z : length tp = length d -> fits 4 tc z -> reg_ok m -> rc < 256 ->
  AES_128_key_exp_restore (tp ++ tc) m (aff first) (rc_of first rc) (length d, d ++ z) =
  Ok (aes_128_key_expansion m (place 12 (kg (aff first) (rc_of first rc) (firstn 4 tc))),
      (length (d ++ rotword (dword m 3)), (d ++ rotword (dword m 3)) ++ skipn 4 z)).
Proof.
  intros Hl Hf Hm Hr. unfold AES_128_key_exp_restore.
  rewrite key_exp_restore_ok by (auto using aff_lt, rc_of_lt). cbn [bind].
  rewrite srcs3 by apply Hm. reflexivity.
Qed.

(** [stp f n tc r out]: run from any position, f consumes n bytes of tc, emits out and returns r *)
Definition stp {A} (f : bytes -> pst -> res (A * pst)) (n : nat) (tc : bytes) (r : A) (out : bytes) : Prop :=
  length out = n /\ (n <= length tc)%nat /\ is_bytes tc /\
  forall tp d z, length tp = length d -> (n <= length z)%nat ->
    f (tp ++ tc) (length d, d ++ z) = Ok (r, (length (d ++ out), (d ++ out) ++ skipn n z)).
Lemma stp_ret {A} (r : A) tc : is_bytes tc -> stp (fun _ st => Ok (r, st)) 0 tc r [].
Proof. intros H. split; [reflexivity|]. split; [lia|]. split; [assumption|]. intros. rewrite app_nil_r. reflexivity. Qed.
Lemma stp_bind {A B} f (g : A -> bytes -> pst -> res (B * pst)) n m tc a b o1 o2 :
  stp f n tc a o1 -> stp (g a) m (skipn n tc) b o2 ->
  stp (fun t st => bind (f t st) (fun x => let (a, st) := x in g a t st)) (n + m) tc b (o1 ++ o2).
Proof.
  intros (L1 & F1 & B1 & H1) (L2 & F2 & B2 & H2). rewrite skipn_length in F2.
  split; [rewrite app_length; lia|]. split; [lia|]. split; [assumption|].
  intros tp d z Hl Hz. rewrite H1 by (assumption || lia). cbn [bind].
  rewrite (app_split n tp tc).
  rewrite H2; [|rewrite !app_length, firstn_length; lia|rewrite skipn_length; lia].
  rewrite <- !app_assoc, <- skipn_plus. reflexivity.
Qed.
Lemma stp_map {A B} f (h : A -> B) n tc a o : stp f n tc a o ->
  stp (fun t st => bind (f t st) (fun x => let (a, st) := x in Ok (h a, st))) n tc (h a) o.
Proof.
  intros (L1 & F1 & B1 & H1). split; [assumption|]. split; [assumption|]. split; [assumption|].
  intros. rewrite H1 by assumption. reflexivity.
Qed.
Lemma stp_ext {A} (f g : bytes -> pst -> res (A * pst)) n tc r o :
  (forall t st, f t st = g t st) -> stp f n tc r o -> stp g n tc r o.
Proof. intros E (L1 & F1 & B1 & H1). repeat (split; [assumption|]). intros. rewrite <- E. auto. Qed.

Lemma stp_restore m i0 i1 i2 i3 dst a rc tc :
  (4 <= length tc)%nat -> is_bytes tc -> a < 256 -> rc < 256 -> (dst = 4 \/ dst = 8 \/ dst = 12)%nat ->
  stp (fun t => key_exp_restore t m [i0;i1;i2;i3] dst a rc) 4 tc (place dst (kg a rc (firstn 4 tc))) (srcs_of m [i0;i1;i2;i3]).
Proof.
  intros. split; [reflexivity|]. split; [assumption|]. split; [assumption|]. intros.
  apply key_exp_restore_ok; auto. split; [assumption|split; assumption].
Qed.
Lemma stp_restore_t first m tc : (16 <= length tc)%nat -> is_bytes tc -> length m = 16%nat ->
  stp (fun t => restore_t_shares first t m) 16 tc (Rt first (firstn 16 tc)) (rows m).
Proof.
  intros. split; [apply rows_length|]. split; [assumption|]. split; [assumption|]. intros.
  apply restore_t_ok; auto. split; [assumption|split; assumption].
Qed.

Lemma AES_128_alt t m a rc st : AES_128_key_exp_restore t m a rc st =
  bind (key_exp_restore t m [13;14;15;12]%nat 12 a rc st) (fun x => let (g, st) := x in Ok (aes_128_key_expansion m g, st)).
Proof.
  unfold AES_128_key_exp_restore, aes_128_key_expansion.
  generalize (key_exp_restore t m [13;14;15;12]%nat 12 a rc st). intros [[g s]| | |]; reflexivity.
Qed.

(** what holds of every schedule computed *)
Definition sched {A} (f : bytes -> pst -> res (list reg * pst)) (n nk : nat) (tc : bytes) (r : list reg * A) (out : bytes) : Prop :=
  stp f n tc (fst r) out /\ length (fst r) = nk /\ Forall reg_ok (fst r) /\ is_bytes out.

Lemma mks128_ok first rcs : forall key tc, reg_ok key -> Forall (fun r => r < 256) rcs ->
  (4 * length rcs <= length tc)%nat -> is_bytes tc ->
  sched (fun t => mks128 first t key rcs) (4 * length rcs) (S (length rcs)) tc (p128 first key rcs tc) (snd (p128 first key rcs tc)).
Proof.
  induction rcs as [|rc rcs IH]; intros key tc Hk Hr Hl Hb; cbn [p128 mks128].
  - split; [apply stp_ret; assumption|]. cbn [fst snd length]. repeat split; repeat constructor; apply Hk.
  - inversion Hr as [|? ? R Hr']; subst. cbn [length] in Hl.
    specialize (IH (aes_128_key_expansion key (place 12 (kg (aff first) (rc_of first rc) (firstn 4 tc)))) (skipn 4 tc)).
    destruct (p128 first (aes_128_key_expansion key (place 12 (kg (aff first) (rc_of first rc) (firstn 4 tc)))) rcs (skipn 4 tc))
      as [ks out] eqn:E.
    destruct IH as (S1 & S2 & S3 & S4);
      [apply reg_ke128; [assumption|apply reg_place_kg; (assumption || lia)]
      |assumption|rewrite skipn_length; lia|apply is_bytes_skipn; assumption|].
    cbn [fst snd] in *. split; [|split; [exact (f_equal S S2)|split; [constructor; assumption|]]].
    + replace (4 * length (rc :: rcs))%nat with (4 + 4 * length rcs)%nat by (cbn [length]; lia).
      eapply (stp_bind (fun t => AES_128_key_exp_restore t key (aff first) (rc_of first rc))
                (fun key' t st => bind (mks128 first t key' rcs st) (fun x => let (ks, st) := x in Ok (key :: ks, st)))).
      * apply (stp_ext (fun t st => bind (key_exp_restore t key [13;14;15;12]%nat 12 (aff first) (rc_of first rc) st)
                                 (fun x => let (g, st) := x in Ok (aes_128_key_expansion key g, st)))).
        { intros t st. symmetry. apply AES_128_alt. }
        apply (stp_map (fun t => key_exp_restore t key [13;14;15;12]%nat 12 (aff first) (rc_of first rc)) (aes_128_key_expansion key)).
        rewrite <- srcs3 by apply Hk. apply stp_restore; auto using aff_lt, rc_of_lt. lia.
      * apply (stp_map (fun t => mks128 first t _ rcs) (cons key)). exact S1.
    + apply is_bytes_app; [apply rot_ok; [assumption|lia]|assumption].
Qed.

Lemma mks192_ok first rcs : forall t1 t3 tc, reg_ok t1 -> reg_ok t3 -> Forall (fun r => fst r < 256 /\ snd r < 256) rcs ->
  (8 * length rcs <= length tc)%nat -> is_bytes tc ->
  sched (fun t => mks192 first t t1 t3 rcs) (8 * length rcs) (3 * length rcs + 1) tc
        (p192 first t1 t3 rcs tc) (snd (p192 first t1 t3 rcs tc)).
Proof.
  induction rcs as [|[ra rb] rcs IH]; intros t1 t3 tc H1 H3 Hr Hl Hb; cbn [p192 mks192].
  - split; [apply stp_ret; assumption|]. cbn [fst snd length]. repeat split; repeat constructor; apply H1.
  - inversion Hr as [|? ? [Ra Rb] Hr']; subst. cbn [length fst snd] in *.
    set (g1 := place 4 (kg (aff first) (rc_of first ra) (firstn 4 tc))).
    assert (G1 : reg_ok g1) by (apply reg_place_kg; (assumption || lia)).
    pose proof (reg_ke192 t1 g1 t3 H1 G1 H3) as [U1 U3].
    destruct (KEY_192_ASSIST t1 g1 t3) as [u1 u3] eqn:Eu. cbn [fst snd] in U1, U3.
    set (g2 := place 4 (kg (aff first) (rc_of first rb) (firstn 4 (skipn 4 tc)))).
    assert (B4 : is_bytes (skipn 4 tc)) by (apply is_bytes_skipn; assumption).
    assert (G2 : reg_ok g2) by (apply reg_place_kg; rewrite ?skipn_length; (assumption || lia)).
    pose proof (reg_ke192 u1 g2 u3 U1 G2 U3) as [W1 W3].
    destruct (KEY_192_ASSIST u1 g2 u3) as [w1 w3] eqn:Ew. cbn [fst snd] in W1, W3.
    specialize (IH w1 w3 (skipn 4 (skipn 4 tc)) W1 W3 Hr').
    destruct (p192 first w1 w3 rcs (skipn 4 (skipn 4 tc))) as [ks out].
    destruct IH as (S1 & S2 & S3 & S4); [rewrite !skipn_length; lia|apply is_bytes_skipn; assumption|].
    cbn [fst snd] in *. split; [|split; [eapply eq_trans; [exact (f_equal (fun n => S (S (S n))) S2)|lia]|split; [|]]].
    + replace (8 * S (length rcs))%nat with (4 + (4 + 8 * length rcs))%nat by lia.
      rewrite <- (srcs1 t3), <- (srcs1 u3) by (apply H3 || apply U3).
      eapply (stp_bind (fun t => AES_192_key_exp_restore t t3 (aff first) (rc_of first ra)) (fun temp2 t st => _)).
      * apply stp_restore; auto using aff_lt, rc_of_lt; lia.
      * fold g1. rewrite Eu.
        eapply (stp_bind (fun t => AES_192_key_exp_restore t u3 (aff first) (rc_of first rb)) (fun temp2 t st => _)).
        -- apply stp_restore; rewrite ?skipn_length; auto using aff_lt, rc_of_lt; lia.
        -- fold g2. rewrite Ew.
           apply (stp_map (fun t => mks192 first t _ _ rcs) (fun ks => t1 :: shuffle_pd0 t3 u1 :: shuffle_pd1 u1 u3 :: ks)). exact S1.
    + repeat (constructor; auto); apply reg_shuffle_pd0 || apply reg_shuffle_pd1; assumption.
    + repeat apply is_bytes_app; try assumption; apply rot_ok; (assumption || lia).
Qed.

Lemma mks256_ok first rcs : forall t1 t3 tc, reg_ok t1 -> reg_ok t3 -> Forall (fun r => r < 256) rcs ->
  (8 * length rcs + 4 <= length tc)%nat -> is_bytes tc ->
  sched (fun t => mks256 first t t1 t3 rcs) (8 * length rcs + 4) (2 * length rcs + 3) tc
        (p256 first t1 t3 rcs tc) (snd (p256 first t1 t3 rcs tc)).
Proof.
  induction rcs as [|rc rcs IH]; intros t1 t3 tc H1 H3 Hr Hl Hb; cbn [p256 mks256].
  - cbn [fst snd length]. split; [|split; [reflexivity|split]].
    + rewrite <- (srcs3 t3) by apply H3.
      apply (stp_map (fun t => AES_256_key_exp_restore t t3 (aff first) (rc_of first 0x40)) (fun g => [t1; t3; KEY_256_ASSIST_1 t1 g])).
      apply stp_restore; auto using aff_lt. apply rc_of_lt. reflexivity.
    + constructor; [assumption|constructor; [assumption|constructor; [|constructor]]].
      apply reg_ke256a; [assumption|apply reg_place_kg; try assumption; [lia|reflexivity]].
    + apply rot_ok; (assumption || lia).
  - inversion Hr as [|? ? Ra Hr']; subst. cbn [length fst snd] in *.
    set (g1 := place 12 (kg (aff first) (rc_of first rc) (firstn 4 tc))).
    assert (G1 : reg_ok g1) by (apply reg_place_kg; (assumption || lia)).
    pose proof (reg_ke256a t1 g1 H1 G1) as U1. set (u1 := KEY_256_ASSIST_1 t1 g1) in *.
    set (g2 := place 8 (kg (aff first) 0 (firstn 4 (skipn 4 tc)))).
    assert (B4 : is_bytes (skipn 4 tc)) by (apply is_bytes_skipn; assumption).
    assert (Z0 : 0 < 256) by reflexivity.
    assert (G2 : reg_ok g2).
    { unfold g2. replace 0 with (rc_of first 0) at 1 by (destruct first; reflexivity).
      apply reg_place_kg; rewrite ?skipn_length; (assumption || lia). }
    pose proof (reg_ke256b g2 t3 G2 H3) as U3. set (u3 := KEY_256_ASSIST_2 g2 t3) in *.
    specialize (IH u1 u3 (skipn 4 (skipn 4 tc)) U1 U3 Hr').
    destruct (p256 first u1 u3 rcs (skipn 4 (skipn 4 tc))) as [ks out].
    destruct IH as (S1 & S2 & S3 & S4); [rewrite !skipn_length; lia|apply is_bytes_skipn; assumption|].
    cbn [fst snd] in *. split; [|split; [eapply eq_trans; [exact (f_equal (fun n => S (S n)) S2)|lia]|split; [|]]].
    + replace (8 * S (length rcs) + 4)%nat with (4 + (4 + (8 * length rcs + 4)))%nat by lia.
      rewrite <- (srcs3 t3), <- (srcs3' u1) by (apply H3 || apply U1).
      eapply (stp_bind (fun t => AES_256_key_exp_restore t t3 (aff first) (rc_of first rc)) (fun temp2 t st => _)).
      * apply stp_restore; auto using aff_lt, rc_of_lt; lia.
      * fold g1. fold u1.
        eapply (stp_bind (fun t => AES_256_key_exp_restore_2 t u1 (aff first)) (fun temp2 t st => _)).
        -- apply stp_restore; rewrite ?skipn_length; auto using aff_lt, rc_of_lt; lia.
        -- fold g2. fold u3.
           apply (stp_map (fun t => mks256 first t _ _ rcs) (fun ks => t1 :: t3 :: ks)). exact S1.
    + constructor; [assumption|constructor; assumption].
    + repeat apply is_bytes_app; try assumption; [apply rot_ok|apply word_ok]; (assumption || lia).
Qed.

Lemma prounds_ok first ks : forall m tc, ks <> [] -> reg_ok m -> Forall reg_ok ks ->
  (16 * length ks <= length tc)%nat -> is_bytes tc ->
  stp (fun t => mpc_rounds first t m ks) (16 * length ks) tc (fst (prounds first m ks tc)) (snd (prounds first m ks tc)) /\
  reg_ok (fst (prounds first m ks tc)) /\ is_bytes (snd (prounds first m ks tc)).
Proof.
  induction ks as [|k ks IH]; intros m tc Hn Hm Hks Hl Hb; [congruence|].
  inversion Hks as [|? ? Hk Hks']; subst. cbn [length] in Hl.
  assert (HR : reg_ok (Rt first (firstn 16 tc))).
  { apply Rt_ok. split; [rewrite firstn_length; lia|apply is_bytes_firstn; assumption]. }
  assert (Br : is_bytes (rows m)).
  { unfold rows. apply Forall_map, Forall_forall. intros j _. apply is_bytes_nth. apply Hm. }
  destruct ks as [|k' ks].
  - cbn [prounds fst snd mpc_rounds]. split; [|split; [apply reg_xor; assumption|assumption]].
    apply (stp_map (fun t => restore_t_shares first t m) (fun m => xor128 m k)). apply stp_restore_t; [lia|assumption|apply Hm].
  - change (prounds first m (k :: k' :: ks) tc) with
      (let '(c, out) := prounds first (xorl (aesimc (aesimc (aesimc (Rt first (firstn 16 tc))))) k) (k' :: ks) (skipn 16 tc) in
       (c, rows m ++ out)).
    specialize (IH (xorl (aesimc (aesimc (aesimc (Rt first (firstn 16 tc))))) k) (skipn 16 tc)).
    destruct (prounds first (xorl (aesimc (aesimc (aesimc (Rt first (firstn 16 tc))))) k) (k' :: ks) (skipn 16 tc)) as [c out].
    destruct IH as (S1 & S2 & S3); [congruence| |assumption|rewrite skipn_length; lia|apply is_bytes_skipn; assumption|].
    + apply reg_xor; [|assumption]. rewrite aesimc3 by assumption. apply reg_columns_mc; [apply HR|assumption].
    + cbn [fst snd] in *. split; [|split; [assumption|apply is_bytes_app; assumption]].
      replace (16 * length (k :: k' :: ks))%nat with (16 + 16 * length (k' :: ks))%nat by (cbn [length]; lia).
      eapply (stp_bind (fun t => restore_t_shares first t m)
        (fun m t st => mpc_rounds first t (xor128 (aesimc (aesimc (aesimc m))) k) (k' :: ks) st)).
      * apply stp_restore_t; [lia|assumption|apply Hm].
      * exact S1.
Qed.

(** ** whole parties *)
Lemma mpc_block_ok first pt k0 ks tp tc d z : length tp = length d -> reg_ok pt -> reg_ok k0 -> Forall reg_ok ks -> ks <> [] ->
  (16 * length ks <= length tc)%nat -> (16 * length ks <= length z)%nat -> is_bytes tc ->
  let r := pblock first pt (k0 :: ks) tc in
  mpc_block first (tp ++ tc) pt (k0 :: ks) (d ++ z) (length d) = Ok (fst r, (d ++ snd r) ++ skipn (16 * length ks) z) /\
  reg_ok (fst r) /\ length (snd r) = (16 * length ks)%nat /\ is_bytes (snd r).
Proof.
  intros Hl Hp Hk Hks Hn Ht Hz Hb r.
  assert (Hm : reg_ok (xorl (if first then pt else zeros 16) k0)).
  { apply reg_xor; [destruct first; [assumption|apply reg_zeros]|assumption]. }
  destruct (prounds_ok first ks _ tc Hn Hm Hks Ht Hb) as ((S1 & S2 & S3 & S4) & R1 & R2).
  unfold r, pblock.
  split; [exact (f_equal (fun x => bind x (fun y : reg * pst => let (c, st) := y in Ok (c, snd st))) (S4 tp d z Hl Hz))|]. split; [assumption|]. split; assumption.
Qed.
Lemma read_all {A} (l : list A) n : length l = n -> read l 0 n = Ok l.
Proof. intros <-. eapply eq_trans; [apply (read_app [] l 0 (length l)); [reflexivity|lia]|]. rewrite firstn_all. reflexivity. Qed.

Lemma skipn_zeros n m : skipn n (zeros m) = zeros (m - n).
Proof. revert m; induction n; intros [|m]; cbn; auto. Qed.
Lemma zeros_length n : length (zeros n) = n. Proof. apply repeat_length. Qed.

Definition party_out (nb ns : nat) (r : bytes * bytes) : Prop :=
  length (fst r) = nb /\ is_bytes (fst r) /\ length (snd r) = ns /\ is_bytes (snd r).

Lemma bind_eq {A B} (x : res A) (f : A -> res B) a y : x = Ok a -> f a = y -> bind x f = y.
Proof. intros -> E. exact E. Qed.

Lemma party_128_ok first key t pt : reg_ok key -> reg_ok pt -> length t = 200%nat -> is_bytes t ->
  party_128 first key t pt 200 = Ok (P128 first key t pt) /\ party_out 16 200 (P128 first key t pt).
Proof.
  intros Hk Hp Lt Bt. unfold party_128, P128.
  destruct (mks128_ok first rcons128 key t Hk) as ((O1 & O2 & O3 & O4) & K1 & K2 & O5); [repeat constructor|cbn; lia|assumption|].
  specialize (O4 [] [] (zeros 200) eq_refl). cbn [app length] in O4.
  assert (O4' := O4 ltac:(rewrite zeros_length; cbn; lia)). clear O4.
  destruct (p128 first key rcons128 t) as [ks o]. cbn [fst snd bind] in *.
  change (4 * length rcons128)%nat with 40%nat in *. rewrite skipn_zeros in O4'.
  destruct ks as [|k0 ks]; [discriminate K1|]. apply Nat.succ_inj in K1. inversion K2; subst.
  assert (Ln : length ks = 10%nat) by exact K1.
  destruct (mpc_block_ok first pt k0 ks (firstn 40 t) (skipn 40 t) o (zeros (200 - 40))) as (M1 & M2 & M3 & M4);
    try assumption.
  { rewrite firstn_length, O1. lia. } { intros ->. discriminate Ln. }
  { rewrite skipn_length, Ln. lia. } { rewrite zeros_length, Ln. lia. } { apply is_bytes_skipn; assumption. }
  rewrite firstn_skipn, O1 in M1.
  destruct (pblock first pt (k0 :: ks) (skipn 40 t)) as [c o1]. cbn [fst snd] in *.
  rewrite Ln in *. rewrite skipn_zeros, app_nil_r in M1. split.
  - refine (bind_eq _ _ _ _ (read_all key 16 (proj1 Hk)) _). cbv beta.
    refine (bind_eq _ _ _ _ O4' _). cbv beta iota.
    refine (bind_eq _ _ _ _ (read_all pt 16 (proj1 Hp)) _). exact M1.
  - split; [apply M2|]. split; [apply M2|]. cbn [fst snd]. split; [rewrite app_length; lia|apply is_bytes_app; assumption].
Qed.

Lemma pt_halves pt : length pt = 32%nat -> is_bytes pt ->
  read pt 0 16 = Ok (firstn 16 pt) /\ read pt 16 16 = Ok (skipn 16 pt) /\ reg_ok (firstn 16 pt) /\ reg_ok (skipn 16 pt).
Proof.
  intros L B. split; [|split; [|split; split]].
  - apply (read_app [] pt 0 16); [reflexivity|lia].
  - rewrite <- (firstn_skipn 16 pt) at 1. rewrite (read_app (firstn 16 pt) (skipn 16 pt));
      [|rewrite firstn_length; lia|rewrite skipn_length; lia].
    rewrite firstn_all2; [reflexivity|rewrite skipn_length; lia].
  - rewrite firstn_length; lia.
  - apply is_bytes_firstn; assumption.
  - rewrite skipn_length; lia.
  - apply is_bytes_skipn; assumption.
Qed.

(** two blocks after a schedule that used n bytes *)
Lemma two_blocks_ok first pt k0 ks t o n total : length pt = 32%nat -> is_bytes pt -> reg_ok k0 -> Forall reg_ok ks ->
  (0 < length ks)%nat -> is_bytes t -> is_bytes o -> length o = n -> length t = total ->
  total = (n + (16 * length ks + 16 * length ks))%nat ->
  let r0 := pblock first (firstn 16 pt) (k0 :: ks) (skipn n t) in
  let r1 := pblock first (skipn 16 pt) (k0 :: ks) (skipn (16 * length ks) (skipn n t)) in
  bind (mpc_block first t (firstn 16 pt) (k0 :: ks) (o ++ zeros (total - n)) n) (fun x => let (c0, s) := x in
    bind (Ok (skipn 16 pt)) (fun p1 => bind (mpc_block first t p1 (k0 :: ks) s (n + 16 * length ks)) (fun x => let (c1, s) := x in
      Ok (c0 ++ c1, s)))) = Ok (fst r0 ++ fst r1, o ++ snd r0 ++ snd r1) /\
  party_out 32 total (fst r0 ++ fst r1, o ++ snd r0 ++ snd r1).
Proof.
  intros Lp Bp Hk Hks Hn Bt Bo Lo Lt Tot r0 r1. destruct (pt_halves pt Lp Bp) as (_ & _ & P0 & P1).
  assert (Hne : ks <> []) by (intros ->; cbn in Hn; lia).
  destruct (mpc_block_ok first (firstn 16 pt) k0 ks (firstn n t) (skipn n t) o (zeros (total - n))) as (M1 & M2 & M3 & M4);
    try assumption.
  { rewrite firstn_length. lia. } { rewrite skipn_length. lia. } { rewrite zeros_length. lia. }
  { apply is_bytes_skipn; assumption. }
  rewrite firstn_skipn, Lo in M1. rewrite M1. cbn [bind]. fold r0. fold r0 in M2, M3, M4. clear M1.
  rewrite skipn_zeros.
  destruct (mpc_block_ok first (skipn 16 pt) k0 ks (firstn n t ++ firstn (16 * length ks) (skipn n t))
    (skipn (16 * length ks) (skipn n t)) (o ++ snd r0) (zeros (total - n - 16 * length ks))) as (N1 & N2 & N3 & N4);
    try assumption.
  { rewrite !app_length, !firstn_length, skipn_length. lia. } { rewrite !skipn_length. lia. } { rewrite zeros_length. lia. }
  { apply is_bytes_skipn, is_bytes_skipn; assumption. }
  rewrite <- (app_split (16 * length ks)), firstn_skipn in N1.
  replace (length (o ++ snd r0)) with (n + 16 * length ks)%nat in N1 by (rewrite app_length; lia).
  rewrite N1. cbn [bind]. fold r1. fold r1 in N2, N3, N4.
  rewrite skipn_zeros. replace (total - n - 16 * length ks - 16 * length ks)%nat with 0%nat by lia. cbn [zeros repeat].
  rewrite app_nil_r, <- app_assoc. split; [reflexivity|].
  split; [cbn [fst]; rewrite app_length, (proj1 M2), (proj1 N2); reflexivity|].
  split; [apply is_bytes_app; [apply M2|apply N2]|]. cbn [snd].
  split; [rewrite !app_length; lia|repeat apply is_bytes_app; assumption].
Qed.

Lemma party_192_ok first key t pt : length key = 24%nat -> is_bytes key -> length pt = 32%nat -> is_bytes pt ->
  length t = 416%nat -> is_bytes t ->
  party_192 first key t pt 416 = Ok (P192 first key t pt) /\ party_out 32 416 (P192 first key t pt).
Proof.
  intros Lk Bk Lp Bp Lt Bt. unfold party_192, P192. destruct (reg_192 key Lk Bk) as [H1 H3].
  destruct (pt_halves pt Lp Bp) as (R0 & R1 & _ & _).
  assert (Ek : firstn 24 key = key) by (apply firstn_all2; lia).
  destruct (mks192_ok first rcons192 (lo192 key) (hi192 key) t H1 H3) as ((O1 & O2 & O3 & O4) & K1 & K2 & O5);
    [repeat constructor|cbn; lia|assumption|].
  specialize (O4 [] [] (zeros 416) eq_refl). cbn [app length] in O4.
  assert (O4' := O4 ltac:(rewrite zeros_length; cbn; lia)). clear O4.
  destruct (p192 first (lo192 key) (hi192 key) rcons192 t) as [ks o]. cbn [fst snd bind] in *.
  change (8 * length rcons192)%nat with 32%nat in *. rewrite skipn_zeros in O4'.
  destruct ks as [|k0 ks]; [discriminate K1|]. apply Nat.succ_inj in K1. inversion K2; subst.
  assert (Ln : length ks = 12%nat) by exact K1.
  destruct (two_blocks_ok first pt k0 ks t o 32 416) as [E1 E2]; try assumption; rewrite ?Ln; try lia.
  rewrite Ln in E1, E2. change (16 * 12)%nat with 192%nat in E1, E2. 
  destruct (pblock first (firstn 16 pt) (k0 :: ks) (skipn 32 t)) as [c0 o0].
  destruct (pblock first (skipn 16 pt) (k0 :: ks) (skipn 192 (skipn 32 t))) as [c1 o1].
  split; [|exact E2].
  refine (bind_eq _ _ _ _ (read_all key 24 Lk) _). cbv beta zeta. rewrite <- Ek.
  refine (bind_eq _ _ _ _ O4' _). cbv beta iota.
  refine (bind_eq _ _ _ _ R0 _). cbv beta. rewrite R1. exact E1.
Qed.
Lemma party_256_ok first key t pt : length key = 32%nat -> is_bytes key -> length pt = 32%nat -> is_bytes pt ->
  length t = 500%nat -> is_bytes t ->
  party_256 first key t pt 500 = Ok (P256 first key t pt) /\ party_out 32 500 (P256 first key t pt).
Proof.
  intros Lk Bk Lp Bp Lt Bt. unfold party_256, P256. destruct (reg_256 key Lk Bk) as [H1 H3].
  destruct (pt_halves pt Lp Bp) as (R0 & R1 & _ & _).
  destruct (mks256_ok first rcons256 (firstn 16 key) (skipn 16 key) t H1 H3) as ((O1 & O2 & O3 & O4) & K1 & K2 & O5);
    [repeat constructor|cbn; lia|assumption|].
  specialize (O4 [] [] (zeros 500) eq_refl). cbn [app length] in O4.
  assert (O4' := O4 ltac:(rewrite zeros_length; cbn; lia)). clear O4.
  destruct (p256 first (firstn 16 key) (skipn 16 key) rcons256 t) as [ks o]. cbn [fst snd bind] in *.
  change (8 * length rcons256 + 4)%nat with 52%nat in *. rewrite skipn_zeros in O4'.
  destruct ks as [|k0 ks]; [discriminate K1|]. apply Nat.succ_inj in K1. inversion K2; subst.
  assert (Ln : length ks = 14%nat) by exact K1.
  destruct (two_blocks_ok first pt k0 ks t o 52 500) as [E1 E2]; try assumption; rewrite ?Ln; try lia.
  rewrite Ln in E1, E2. change (16 * 14)%nat with 224%nat in E1, E2. 
  destruct (pblock first (firstn 16 pt) (k0 :: ks) (skipn 52 t)) as [c0 o0].
  destruct (pblock first (skipn 16 pt) (k0 :: ks) (skipn 224 (skipn 52 t))) as [c1 o1].
  split; [|exact E2].
  refine (bind_eq _ _ _ _ (read_all key 32 Lk) _). cbv beta.
  refine (bind_eq _ _ _ _ O4' _). cbv beta iota.
  refine (bind_eq _ _ _ _ R0 _). cbv beta. rewrite R1. exact E1.
Qed.
