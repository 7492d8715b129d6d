(** The lookups of banquet_sign give the key away (C60). *)
From Coq Require Import Arith NArith ZArith List Bool Lia.
From Verif Require Import Prelude FieldModel PolyModel Instances HashModel TreeModel AesSpec AesModel AesBase AesApi AesShares BanquetModel BanquetPure BanquetVerify Serialize BanquetApi ShareFacts LeakModel LeakSpec.
Import ListNotations.

Lemma snd_lbind {A B} (m : logged A) (f : A -> logged B) : snd (lbind m f) = bind (snd m) (fun a => snd (f a)).
Proof. destruct m as [l [a|e|u|]]; reflexivity. Qed.
Lemma bind_ext {A B} (m : res A) (f g : A -> res B) : (forall a, f a = g a) -> bind m f = bind m g.
Proof. intros E. destruct m; cbn; auto. Qed.
Lemma snd_lmapM {A B} (f : A -> logged B) l : snd (lmapM f l) = mapM (fun a => snd (f a)) l.
Proof. induction l as [|a l IH]; [reflexivity|]. cbn [lmapM mapM]. rewrite snd_lbind. apply bind_ext. intros b. rewrite snd_lbind, IH. reflexivity. Qed.
Definition tame {A} (r : res A) : Prop := (exists a, r = Ok a) \/ r = UB OutOfBounds.
Lemma get_tame {A} (l : list A) i : tame (get l i).
Proof. unfold tame, get. destruct (nth_error l i) eqn:E; eauto. Qed.
Lemma mapM_tame {A B} (f : A -> res B) l : (forall a, tame (f a)) -> tame (mapM f l).
Proof.
  intros T. induction l as [|a l IH]; [left; eexists; reflexivity|]. cbn [mapM]. destruct (T a) as [[b ->]| ->]; [|right; reflexivity]. cbn [bind].
  destruct IH as [[bs ->]| ->]; [left; eexists; reflexivity|right; reflexivity].
Qed.
Lemma mapM_pair {A B C D} (f : A -> res B) (g : A -> res C) (l : list A) (K : list B -> list C -> res D) : (forall a, tame (f a)) -> (forall a, tame (g a)) ->
  (do ps <- mapM (fun a => do x <- f a; do y <- g a; Ok (x, y)) l; K (map fst ps) (map snd ps)) = (do xs <- mapM f l; do ys <- mapM g l; K xs ys).
Proof.
  intros Tf Tg. revert K. induction l as [|a l IH]; intros K; [reflexivity|]. cbn [mapM].
  destruct (Tf a) as [[x Ef]|Ef]; rewrite Ef; cbn [bind]; [|reflexivity].
  destruct (Tg a) as [[y Eg]|Eg]; rewrite Eg; cbn [bind].
  - specialize (IH (fun xs ys => K (x :: xs) (y :: ys))).
    transitivity (do ps <- mapM (fun a => do x <- f a; do y <- g a; Ok (x, y)) l; K (x :: map fst ps) (y :: map snd ps)).
    { destruct (mapM _ l); reflexivity. }
    rewrite IH. destruct (mapM f l); [|reflexivity..]. cbn [bind]. destruct (mapM g l); reflexivity.
  - destruct (mapM_tame f l Tf) as [[xs ->]| ->]; reflexivity.
Qed.

Section Erase.
Variable H : oracle.
Variable I : instance.
Variable c : fctx.
Lemma erase_pairs {D} (s t : bytes) (g : nat -> nat) l (K : list N -> list N -> res D) :
  (do yst <- mapM (fun k => snd (obs x <- quiet (get s (g k)); obs x <- log_lift c x; obs y <- quiet (get t (g k)); obs y <- log_lift c y; quiet (Ok (x, y)))) l;
   K (map fst yst) (map snd yst)) =
  (do ys <- mapM (fun k => do x <- get s (g k); Ok (lift c x)) l; do yt <- mapM (fun k => do x <- get t (g k); Ok (lift c x)) l; K ys yt).
Proof.
  rewrite <- (mapM_pair (fun k => do x <- get s (g k); Ok (lift c x)) (fun k => do x <- get t (g k); Ok (lift c x)) l K).
  - f_equal. apply mapM_ext. intros k _. rewrite snd_lbind. cbn [quiet snd]. destruct (get s (g k)), (get t (g k)); reflexivity.
  - intros k. destruct (get_tame s (g k)) as [[x ->]| ->]; [left; eexists; reflexivity|right; reflexivity].
  - intros k. destruct (get_tame t (g k)) as [[x ->]| ->]; [left; eexists; reflexivity|right; reflexivity].
Qed.
Lemma erase_products pre last s t j : snd (log_sbox_products I c pre last s t j) = sbox_products I c pre last s t j.
Proof.
  unfold log_sbox_products, sbox_products. rewrite snd_lbind, snd_lmapM.
  rewrite <- (erase_pairs s t (fun k => j + m1 I * k)). apply bind_ext. intros yst.
  repeat (rewrite snd_lbind; apply bind_ext; intros ?). reflexivity.
Qed.
Lemma erase_points rs s t tp : snd (log_party_points I c rs s t tp) = party_points I c rs s t tp.
Proof.
  unfold log_party_points, party_points, lift_shares. rewrite snd_lbind, snd_lmapM.
  rewrite <- (erase_pairs s t (fun k => k)). apply bind_ext. intros l. reflexivity.
Qed.
Lemma erase_phase3 xs2 prods sq rs p1 tapes : snd (log_sign_phase3 I c xs2 prods sq rs p1 tapes) = sign_phase3 I c xs2 prods sq rs p1 tapes.
Proof.
  unfold log_sign_phase3, sign_phase3. rewrite snd_lbind, snd_lmapM.
  erewrite mapM_ext; [apply bind_ext; intros pts; reflexivity|]. intros p _. repeat (rewrite snd_lbind; apply bind_ext; intros ?). apply erase_points.
Qed.
Lemma erase_body fuel garb kp msg : snd (log_sign_body H I c fuel garb kp msg) = sign_body H I c fuel garb kp msg.
Proof.
  unfold log_sign_body, sign_body. do 3 (rewrite snd_lbind; cbn [quiet snd]; apply bind_ext; intros ?).
  destruct (generate_salt_and_seeds H I kp msg) as [salt seeds]. do 8 (rewrite snd_lbind; cbn [quiet snd]; apply bind_ext; intros ?).
  rewrite snd_lbind, snd_lmapM. erewrite mapM_ext; [apply bind_ext; intros prods|intros j _; apply erase_products].
  rewrite snd_lbind, snd_lmapM. erewrite mapM_ext; [apply bind_ext; intros ph3; reflexivity|].
  intros rep _. repeat (rewrite snd_lbind; cbn [quiet snd]; apply bind_ext; intros ?). apply erase_phase3.
Qed.
End Erase.
Lemma log_sign_erase H fuel garb st I kp msg : snd (log_sign H fuel garb st I kp msg) = snd (sign H fuel garb st I kp msg).
Proof.
  unfold log_sign, sign, with_field. destruct (st_init st (lambda I)) as [[c|] [[]| | |]]; cbn [quiet snd]; try reflexivity. apply erase_body.
Qed.
