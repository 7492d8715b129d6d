(** Signing with a key whose cipher evaluation has a zero at the input of some S-box (C61). *)
From Coq Require Import Arith NArith List Bool Lia.
From Verif Require Import Prelude FieldModel FieldSpec FieldApi FieldLin PolyModel Instances HashModel TreeModel TreeSpec TreeApi AesSpec AesModel AesBase AesPlain AesApi AesShares BanquetModel ListSum BanquetHash BanquetPure BanquetPoly BanquetVerify BanquetSign BanquetCtx BanquetRun BanquetApi.
Import ListNotations.

(** the evaluation stops at the zero, and the saved vectors stay too short *)
Lemma ext_len l : length (snd (ext ([], []) l)) = length l.
Proof. unfold ext. cbn [fst snd app]. apply map_length. Qed.
Lemma short_save nk key pt : aes_in nk key pt -> In 0%N (all_sbox_inputs nk key (blocks nk pt)) ->
  length (snd (fst (aes_n_save nk key pt))) < nsboxes nk.
Proof.
  intros Hin Hz. pose proof Hin as Hin'.
  assert (Tr : has_zero (sbox_trace nk key (blocks nk pt)) = true) by (apply has_zero_iff; apply (aes_trace_zero nk key pt Hin); exact Hz).
  destruct (aes_trace nk key pt Hin) as [TL _].
  assert (S : exists r, sv_is (aes_n_save nk key pt) ([], []) (sbox_trace nk key (blocks nk pt)) r).
  { aes_cases Hin'; eexists; [apply save_128_is|apply save_192_is|apply save_256_is]; try assumption. all: split; assumption. }
  destruct S as [r S]. unfold sv_is in S. rewrite Tr in S. destruct S as (_ & l' & E & _ & L). rewrite E, ext_len. lia.
Qed.

Section Zero.
Variables (H : oracle) (I : instance) (c : fctx) (nk : nat).
Hypothesis OK : inst_ok I c nk.
Notation ks := (key_size (i_aes I)).
Notation sb := (num_sboxes (i_aes I)).
Notation n := (num_parties I).
Notation T := (num_rounds I).
Variables (key pt ct : bytes).
Hypothesis Hk : str ks key.
Hypothesis Hp : str (pt_size I) pt.
Hypothesis Hct : length ct = pt_size I.
Hypothesis Hz : In 0%N (all_sbox_inputs nk key (blocks nk pt)).
Variable msg : bytes.

Lemma save_run : aes_with_sbox_output ks key pt = Ok (aes_n_save nk key pt).
Proof.
  unfold aes_with_sbox_output. rewrite (by_key I c nk OK). cbn [bind]. rewrite read_all by apply Hk. cbn [bind].
  assert (Ep : aes_pt_size ks = pt_size I).
  { rewrite (io_pt _ _ _ OK). rewrite (io_ks _ _ _ OK). destruct (io_nk _ _ _ OK) as [<-|[<-|[<-|[]]]]; reflexivity. }
  rewrite Ep, read_all by apply Hp. cbn [bind]. destruct (io_nk _ _ _ OK) as [<-|[<-|[<-|[]]]]; reflexivity.
Qed.
(** the first party's share is xored over the end of the short vector *)
Lemma short_share t (tapes : nat -> bytes) : length t < sb -> (forall p, p < n -> tape_ok I (tapes p)) ->
  sign_phase1 I key t pt (map tapes (seq 0 n)) = UB OutOfBounds.
Proof.
  intros Lt HT. pose proof (n_pos I c nk OK) as Hn. unfold sign_phase1.
  rewrite (share_secret_ok I c nk OK tapes HT key ks 0 (fun _ => [])); [|exact Hk|unfold tape_size; lia|intros p Hpn; apply t_key_str; auto]. cbv zeta. cbn [bind].
  unfold share_secret at 1. rewrite tape_shares_ok; [|intros p Hpn; apply (HT p Hpn)|unfold tape_size; lia]. cbn [bind].
  destruct n as [|n'] eqn:En; [lia|]. cbn [seq map foldM]. unfold xor_into.
  destruct (HT 0 ltac:(lia)) as [L0 _]. rewrite slice_length by (rewrite L0; unfold tape_size; lia).
  replace (sb <=? length t) with false by (symmetry; apply Nat.leb_gt; exact Lt). reflexivity.
Qed.
Theorem zero_body fuel garb : 0 < T -> sign_body H I c fuel garb (key, pt ++ ct) msg = UB OutOfBounds.
Proof.
  intros HT. pose proof (inst_aes_in I c nk key pt OK Hk Hp) as Hin. pose proof (short_save nk key pt Hin Hz) as Sh.
  unfold sign_body. cbn [fst snd]. rewrite (read_app_l pt ct (pt_size I)) by apply Hp. cbn [bind].
  rewrite (read_app_r pt ct (pt_size I) (pt_size I)) by (apply Hp || exact Hct). cbn [bind]. rewrite save_run. cbn [bind].
  destruct (seeds_ok H I key pt ct msg) as [Ls Hseed].
  rewrite (surjective_pairing (generate_salt_and_seeds H I (key, pt ++ ct) msg)). fold (sg_salt H I key pt ct msg).
  destruct (mapM_exists (fun rep => do master <- get (snd (generate_salt_and_seeds H I (key, pt ++ ct) msg)) rep; sign_setup H I (sg_salt H I key pt ct msg) rep master)
    (fun r x => snd x = map (sg_tape H I key pt ct msg r) (seq 0 n)) T (mkTree [] [] [] 0 0 0, [], [])) as (setup & E1 & L1 & P1).
  { intros r Hr. rewrite (@get_ok bytes _ r []) by (rewrite Ls; exact Hr). cbn [bind]. fold (sg_seed H I key pt ct msg r).
    destruct (sign_setup_ok H I c nk OK (sg_salt H I key pt ct msg) r (sg_seed H I key pt ct msg r) (io_wide _ _ _ OK) (proj1 (Hseed r Hr))) as (t0 & A & B).
    eexists. split; [exact A|]. reflexivity. }
  rewrite E1. cbn [bind]. clear E1. destruct T as [|T'] eqn:ET; [lia|]. cbn [seq mapM].
  destruct (P1 0 ltac:(lia)) as [_ E0]. rewrite (get_ok (map snd setup) 0 []) by (rewrite map_length; lia). cbn [bind].
  replace (nth 0 (map snd setup) []) with (map (sg_tape H I key pt ct msg 0) (seq 0 n)).
  2:{ rewrite <- E0. destruct setup; [cbn in L1; lia|]. reflexivity. }
  rewrite short_share; [reflexivity| |intros; apply sg_tape_ok]. rewrite (io_sb _ _ _ OK). exact Sh.
Qed.
Theorem zero_sign fuel garb st : 0 < T -> snd (sign H fuel garb st I (key, pt ++ ct) msg) = UB OutOfBounds.
Proof. intros HT. unfold sign. rewrite (with_field_ok _ _ _ _ (io_field _ _ _ OK)). cbn [snd]. apply zero_body. exact HT. Qed.
End Zero.
