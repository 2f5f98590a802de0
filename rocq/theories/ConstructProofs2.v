(** Proofs about objects loaded from a file, the name of the file, and the gridded and random sightlines. *)
From Coq Require Import Ascii String Reals ZArith Lra Lia Bool.
From Flocq Require Import Core.Raux.
From Coq Require Import List Arith.
From Verif Require Import OpenModel OpenSpec OpenProofs SightlineModel SightlineSpec SightlineProofs.
From Verif Require SetupModel SetupSpec SetupProofs.
From Verif Require Import ConstructModel ConstructSpec ConstructProofs.
Import ListNotations.
Local Open Scope string_scope.

(** ** From a file *)

Lemma C100_loaded_aux : forall w a o, a_reload a = false ->
  (spectra w a = Good o <->
   exists f, files w (path o) = Some f /\
     cofm o = f_cofm f /\ axis o = f_axis f /\ NumLos o = length (f_axis f) /\
     SetupModel.from_file (header f) (a_units a) (a_res a) (a_Hz a) = SetupModel.Done (pixels o) /\
     path o = save_path (dirs w) (a_base a) (a_num a) (a_savedir a) (a_savefile a) /\
     ((snapshots w (a_num a) (a_base a) = NoSnapshot /\ kernel_int o = None /\ has_snapshot o = false /\ has_gas o = false) \/
      exists s g k, snapshots w (a_num a) (a_base a) = Found s g /\ takes_kernel g (a_kernel a) k /\
        kernel_int o = Some k /\ has_snapshot o = true /\
        ((a_gasprop a (pixels o) = GasOk /\ has_gas o = true) \/ (a_gasprop a (pixels o) = GasAttribute /\ has_gas o = false)))).
Proof.
  intros w a o R. unfold spectra, open_step. rewrite R. split.
  - destruct (snapshots w (a_num a) (a_base a)) as [s g| |] eqn:F; cbn [bind fst snd]; [| |discriminate].
    + destruct (pick_kernel g (a_kernel a)) as [k|] eqn:K; cbn [bind fst snd]; [|discriminate]. apply kernel_takes in K.
      destruct (files w _) as [f|] eqn:E; cbn [bind]; [|discriminate].
      destruct (of_setup _) as [px|] eqn:P; cbn [bind]; [|discriminate]. apply setup_good in P.
      destruct (gas_step _ _) as [b|] eqn:G; cbn [bind]; [|discriminate]. apply gas_good in G.
      intros [= <-]. cbn [cofm axis pixels has_gas NumLos kernel_int has_snapshot path].
      exists f. repeat (split; [assumption || reflexivity|]). right. exists s, g, k. auto 10.
    + destruct (files w _) as [f|] eqn:E; cbn [bind]; [|discriminate].
      destruct (of_setup _) as [px|] eqn:P; cbn [bind]; [|discriminate]. apply setup_good in P.
      cbn [gas_step bind]. intros [= <-]. cbn [cofm axis pixels has_gas NumLos kernel_int has_snapshot path].
      exists f. repeat (split; [assumption || reflexivity|]). left. auto.
  - intros (f & E & C & X & N & P & PA & [(F & KI & HS & HG) | (s & g & k & F & K & KI & HS & G)]); rewrite F.
    + cbn [bind fst snd]. rewrite <- PA, E. rewrite P. cbn [of_setup bind gas_step]. destruct o; cbn in *. congruence.
    + rewrite (proj2 (kernel_takes _ _ _) K). cbn [bind fst snd]. rewrite <- PA, E, P. cbn [of_setup bind].
      rewrite (proj2 (gas_good (Some s) _ _) G). cbn [bind]. destruct o; cbn in *. congruence.
Qed.

Lemma C100_ignored_aux : forall w num base c x nb res sf sd u k h gp c' x' nb',
  spectra w (Args num base c x nb res sf sd false u k h gp) = spectra w (Args num base c' x' nb' res sf sd false u k h gp).
Proof. reflexivity. Qed.

(** Nothing in the object is taken from the snapshot. *)
Lemma C100_unchecked_aux : forall w w' a s s' g, a_reload a = false ->
  dirs w = dirs w' -> files w = files w' ->
  snapshots w (a_num a) (a_base a) = Found s g -> snapshots w' (a_num a) (a_base a) = Found s' g ->
  spectra w a = spectra w' a.
Proof.
  intros w w' a s s' g R D F S S'. unfold spectra, open_step. rewrite R, D, F, S, S'.
  destruct (pick_kernel g (a_kernel a)); reflexivity.
Qed.

Lemma C100_roundtrip_aux : forall w w' a b o s g,
  a_reload a = true -> spectra w a = Good o ->
  snapshots w (a_num a) (a_base a) = Found s g -> SetupProofs.sane s ->
  a_reload b = false -> a_num b = a_num a -> a_base b = a_base a -> a_savefile b = a_savefile a -> a_savedir b = a_savedir a ->
  a_kernel b = a_kernel a -> a_gasprop b = a_gasprop a -> a_Hz b = a_Hz a -> a_res b = None ->
  match a_units b, SetupModel.unit_length s with
  | Some u, Some v => u = v | None, None => True
  | Some u, None | None, Some u => u = 3.085678e21%R end ->
  dirs w' = dirs w -> snapshots w' = snapshots w -> files w' (path o) = Some (save o) ->
  spectra w' b = Good o.
Proof.
  intros w w' a b o s g R H F S R' N B SF SD K G HZ RE U D SN FI.
  apply (C99_built_aux w a o R) in H. destruct H as (s1 & g1 & k & F1 & K1 & C & X & P & GG & NL & KI & HS & PA).
  rewrite F in F1. injection F1 as <- <-.
  apply (C100_loaded_aux w' b o R'). exists (save o). cbn [save f_cofm f_axis header].
  repeat (split; [assumption || reflexivity|]). rewrite RE, HZ.
  split; [apply (proj1 (SetupProofs.C67_reload_aux s _ _ _ _ _ _ S P U))|].
  rewrite D, N, B, SF, SD. split; [exact PA|]. right. exists s, g, k. rewrite SN, K, G. auto.
Qed.

(** ** The name of the file *)

Lemma plain_ends : forall d, plain d -> ends_with "/" d = false /\ d <> "".
Proof.
  intros d (e & c & -> & N). split; [|destruct e; discriminate].
  unfold ends_with. cbn [String.length]. rewrite length_app_s. cbn [String.length].
  replace (String.length e + 1 - 1) with (String.length e) by lia.
  assert (E : substring (String.length e) 1 (e ++ String c "") = String c "").
  { clear. induction e; cbn; [reflexivity|exact IHe]. }
  rewrite E. cbn. destruct (Ascii.eqb_spec c "/"); [contradiction|]. apply andb_false_r.
Qed.

Lemma join_inside : forall d f, plain d -> relative f -> join d f = d ++ "/" ++ f.
Proof.
  intros d f P R. destruct (plain_ends d P) as [E N]. unfold join. destruct f as [|c f]; [contradiction|]. cbn in R.
  destruct (Ascii.eqb_spec c "/"); [contradiction|]. destruct (String.eqb_spec d ""); [contradiction|]. now rewrite E.
Qed.

Lemma digits_plain : forall w num n, numeral num n -> plain (w ++ num).
Proof.
  intros w num n (Rd & L & _).
  assert (G : forall a s m, reads a s m -> s <> "" -> exists e c, s = e ++ String c "" /\ c <> "/"%char).
  { clear. induction 1 as [a|a c d s n [D E] H IH]; intros N; [contradiction|].
    destruct s as [|c' s'].
    - exists "", c. split; [reflexivity|]. intros K. subst c. apply (f_equal nat_of_ascii) in K.
      rewrite nat_ascii_embedding in K by lia. cbn in K. lia.
    - destruct (IH ltac:(discriminate)) as (e & c1 & E1 & N1). exists (String c e), c1. split; [cbn; now rewrite E1|exact N1]. }
  destruct (G _ _ _ Rd) as (e & c & -> & N); [destruct num; [cbn in L; lia|discriminate]|].
  exists (w ++ e), c. split; [now rewrite <- app_assoc_s|exact N].
Qed.

Lemma plain_app : forall a b, plain b -> plain (a ++ b).
Proof. intros a b (e & c & -> & N). exists (a ++ e), c. split; [now rewrite app_assoc_s|exact N]. Qed.

Lemma C101_place_aux : forall exists_dir base n f, plain base -> relative f ->
  exists d1 d2, dir_of "snapdir_" base n d1 /\ dir_of "SPECTRA_" base n d2 /\
    (exists_dir d1 = true -> inside d1 f (save_path exists_dir base n None f)) /\
    (exists_dir d1 = false -> inside d2 f (save_path exists_dir base n None f)).
Proof.
  intros ex base n f B F. exists (base ++ "/" ++ "snapdir_" ++ snap n), (base ++ "/" ++ "SPECTRA_" ++ snap n).
  split; [exists (snap n); split; [apply snap_numeral|reflexivity]|].
  split; [exists (snap n); split; [apply snap_numeral|reflexivity]|].
  unfold save_path, inside. rewrite !(join_inside base) by (assumption || (cbn; discriminate)).
  pose proof (digits_plain "snapdir_" _ _ (snap_numeral n)). pose proof (digits_plain "SPECTRA_" _ _ (snap_numeral n)).
  split; intros ->; apply join_inside; auto; apply plain_app, (plain_app "/"); assumption.
Qed.

Lemma C101_given_aux : forall exists_dir base n d f, plain d -> relative f ->
  inside d f (save_path exists_dir base n (Some d) f).
Proof. intros. unfold save_path, inside. now apply join_inside. Qed.

Lemma C101_absolute_aux : forall exists_dir base n d f, save_path exists_dir base n d (String "/" f) = String "/" f.
Proof. reflexivity. Qed.

Lemma app_inj_r : forall a b c : string, (a ++ c = b ++ c)%string -> a = b.
Proof.
  intros a b c H. assert (L : String.length a = String.length b).
  { apply (f_equal String.length) in H. rewrite !length_app_s in H. lia. }
  now destruct (app_inj_s a b c c L H).
Qed.

Lemma app_inj_l : forall a b c : string, (c ++ a = c ++ b)%string -> a = b.
Proof. intros a b c H. induction c; cbn in H; [exact H|]. injection H as H. auto. Qed.

Lemma C101_distinct_aux : forall ex ex' base n m f, plain base -> relative f ->
  save_path ex base n None f = save_path ex' base m None f -> n = m.
Proof.
  intros ex ex' base n m f B F H.
  destruct (C101_place_aux ex base n f B F) as (d1 & d2 & (u & U & ->) & (u' & U' & ->) & P1 & P2).
  destruct (C101_place_aux ex' base m f B F) as (e1 & e2 & (v & V & ->) & (v' & V' & ->) & Q1 & Q2).
  unfold inside in *. set (s := "/" ++ f) in *.
  destruct (ex (base ++ "/" ++ "snapdir_" ++ u)); destruct (ex' (base ++ "/" ++ "snapdir_" ++ v));
    [specialize (P1 eq_refl); specialize (Q1 eq_refl); rewrite P1, Q1 in H
    |specialize (P1 eq_refl); specialize (Q2 eq_refl); rewrite P1, Q2 in H
    |specialize (P2 eq_refl); specialize (Q1 eq_refl); rewrite P2, Q1 in H
    |specialize (P2 eq_refl); specialize (Q2 eq_refl); rewrite P2, Q2 in H];
    apply app_inj_r, app_inj_l in H; cbn in H; injection H as H; try discriminate; subst; eauto using numeral_det.
Qed.

(** ** GriddedSpectra and RandSpectra *)

Lemma trunc_map : forall l, map Ztrunc (map IZR l) = l.
Proof. intros l. rewrite map_map. rewrite <- (map_id l) at 2. apply map_ext. intros z. apply Ztrunc_IZR. Qed.

Lemma C99_gridded_aux : forall w a nspec gx ax o, a_reload a = true -> (0 < nspec)%nat ->
  (forall s g, snapshots w (a_num a) (a_base a) = Found s g -> (0 < SetupModel.box s)%R) ->
  gridded w a nspec gx PNone ax = Good o ->
  exists s g pts, snapshots w (a_num a) (a_base a) = Found s g /\
    cofm o = Rows (map (fun p => [fst (fst p); snd (fst p); snd p]) pts) /\
    length (axis o) = length pts /\ NumLos o = (if (ax <? 0)%Z then 3 * (nspec * nspec) else nspec * nspec)%nat /\
    NoDup (combine (axis o) pts) /\
    forall x p, In (x, p) (combine (axis o) pts) <->
      ((ax < 0)%Z \/ x = ax) /\ grid_sightline (SetupModel.box s) nspec x p.
Proof.
  intros w a nspec gx ax o R N B H. unfold gridded in H. rewrite R in H. cbn [negb] in H.
  destruct (snapshots w (a_num a) (a_base a)) as [s g| |] eqn:F; [|discriminate|discriminate]. specialize (B s g eq_refl).
  destruct (get_axes_and_cofm (SetupModel.box s) nspec ax) as [[axes cs]|] eqn:E; [|discriminate].
  assert (AX : (ax < 0 \/ 1 <= ax <= 3)%Z).
  { destruct (Z.ltb_spec ax 0); [lia|]. destruct (Z_le_dec 1 ax); [destruct (Z_le_dec ax 3); [lia|]|];
    rewrite C37_reject_aux in E by lia; discriminate. }
  destruct (C37_grid_aux (SetupModel.box s) nspec ax B N AX) as (axes' & cs' & E' & L & LC & ND & IN).
  rewrite E in E'. injection E' as <- <-.
  apply C99_built_aux in H; [|reflexivity]. cbn in H.
  destruct H as (s1 & g1 & k & F1 & _ & C & X & _ & _ & NL & _).
  apply cofm_takes in C. apply axis_takes in X. cbn in C, X. injection C as C. injection X as X. rewrite trunc_map in X.
  exists s, g, cs. split; [reflexivity|]. rewrite NL, <- X, <- C.
  split; [f_equal; apply map_ext; intros [[x y] z]; reflexivity|]. split; [exact L|]. split; [lia|]. auto.
Qed.

Lemma C99_gridargs_aux : forall w a nspec gx gx' gc gc' ax,
  gridded w a nspec gx PNone ax = gridded w a nspec gx' PNone ax /\
  (a_reload a = false -> gridded w a nspec gx gc ax = gridded w a nspec gx' gc' ax) /\
  (a_reload a = true -> gc <> PNone -> forall o, gridded w a nspec ANone gc ax <> Good o).
Proof.
  intros w a nspec gx gx' gc gc' ax. split; [|split].
  - reflexivity.
  - intros R. unfold gridded. now rewrite R.
  - intros R N o H. unfold gridded in H. rewrite R in H. cbn [negb] in H.
    destruct (snapshots w (a_num a) (a_base a)); try discriminate.
    destruct gc as [|arr l|arr rows]; [contradiction| |];
      apply C99_built_aux in H; try reflexivity; cbn in H; destruct H as (s1 & g1 & k & _ & _ & _ & X & _); inversion X.
Qed.

Lemma C99_rand_aux : forall w a numlos draw seed o, rand w a numlos draw seed false = Good o ->
  exists s g, snapshots w (a_num a) (a_base a) = Found s g /\
    cofm o = Rows (draw seed numlos (SetupModel.box s)) /\ axis o = repeat 1%Z numlos /\ NumLos o = numlos.
Proof.
  intros w a numlos draw seed o H. unfold rand in H.
  destruct (snapshots w (a_num a) (a_base a)) as [s g| |] eqn:F; try discriminate.
  apply C99_built_aux in H; [|reflexivity]. cbn in H. destruct H as (s1 & g1 & k & _ & _ & C & X & _ & _ & NL & _).
  apply cofm_takes in C. apply axis_takes in X. cbn in C, X. injection C as C. injection X as X.
  assert (X' : axis o = repeat 1%Z numlos).
  { rewrite <- X. clear. induction numlos; cbn; [reflexivity|]. rewrite IHnumlos. f_equal. exact (Ztrunc_IZR 1). }
  exists s, g. split; [reflexivity|]. split; [now rewrite C|]. split; [exact X'|]. rewrite NL, X'. apply repeat_length.
Qed.

Lemma C99_randload_aux : forall w a numlos draw seed o, rand w a numlos draw seed true <> Good o.
Proof. intros. unfold rand. destruct (snapshots w (a_num a) (a_base a)); discriminate. Qed.
