(** C99-C101: the constructors of Spectra, GriddedSpectra and RandSpectra; objects loaded from a file; the name of the file. *)
From Coq Require Import Ascii String Reals ZArith Lra Lia List.
From Verif Require Import OpenModel OpenSpec SightlineModel SightlineSpec.
From Verif Require SetupModel SetupProofs.
From Verif Require Import ConstructModel ConstructSpec ConstructProofs ConstructProofs2.
Import ListNotations.
Local Open Scope string_scope.

(** ** C99: from a snapshot *)

(** An object is made exactly when the snapshot opens, the kernel is one of the five names or left out, the positions are an array
    or three numbers, the axis an array or a number, the pixels can be set up and the gas properties do not fail; and it has
    exactly the sightlines, the kernel and the pixels asked.  It has no gas properties if their class raised AttributeError. *)
Theorem C99_built : forall w a o, a_reload a = true ->
  (spectra w a = Good o <->
   exists s g k, snapshots w (a_num a) (a_base a) = Found s g /\
     takes_kernel g (a_kernel a) k /\ takes_cofm (a_cofm a) (cofm o) /\ takes_axis (a_axis a) (axis o) /\
     SetupModel.from_snapshot s (a_units a) (a_res a) (a_nbins a) (a_Hz a) = SetupModel.Done (pixels o) /\
     ((a_gasprop a (pixels o) = GasOk /\ has_gas o = true) \/ (a_gasprop a (pixels o) = GasAttribute /\ has_gas o = false)) /\
     NumLos o = length (axis o) /\ kernel_int o = Some k /\ has_snapshot o = true /\
     path o = save_path (dirs w) (a_base a) (a_num a) (a_savedir a) (a_savefile a)).
Proof. exact C99_built_aux. Qed.
Print Assumptions C99_built.

(** Which error is raised, in this order of precedence: an unreadable snapshot (IndexError), the kernel (TypeError for a string, ValueError for
    a number), the positions (AttributeError), the axis (TypeError for None, AttributeError for a list), no snapshot (IOError). *)
Theorem C99_errors : forall w a, a_reload a = true ->
  (snapshots w (a_num a) (a_base a) = BadSnapshot -> spectra w a = Raise IndexE) /\
  (forall s g, snapshots w (a_num a) (a_base a) = Found s g -> (forall z, ~ takes_kernel g (a_kernel a) z) ->
     spectra w a = Raise (match a_kernel a with KNum _ => ValueE | _ => TypeE end)) /\
  ((snapshots w (a_num a) (a_base a) = NoSnapshot \/
    exists s g z, snapshots w (a_num a) (a_base a) = Found s g /\ takes_kernel g (a_kernel a) z) ->
   ((forall c, ~ takes_cofm (a_cofm a) c) -> spectra w a = Raise AttributeE) /\
   (forall c, takes_cofm (a_cofm a) c -> (forall x, ~ takes_axis (a_axis a) x) ->
      spectra w a = Raise (match a_axis a with ANone => TypeE | _ => AttributeE end)) /\
   (forall c x, takes_cofm (a_cofm a) c -> takes_axis (a_axis a) x ->
      snapshots w (a_num a) (a_base a) = NoSnapshot -> spectra w a = Raise IOE)).
Proof. exact C99_errors_aux. Qed.
Print Assumptions C99_errors.

(** The RuntimeError that explains what to do if cofm or axis is None is never raised. *)
Theorem C99_none_refuted : forall w a, spectra w a <> Raise RuntimeE.
Proof. exact C99_none_aux. Qed.
Print Assumptions C99_none_refuted.

Definition ex_snap := SetupModel.Snapshot 10000 (1/4) (7/10) (3/10) (7/10) None.
Definition ex_world := World (fun n _ => if (n =? 5)%nat then Found ex_snap 1 else NoSnapshot) (fun _ => false) (fun _ => None).
Definition ex_args c x := Args 5 "/sim" c x (Some 1000%Z) None "spectra.hdf5" None true None (KStr "quintic") None (fun _ => GasOk).

(** Nothing compares the number of positions with the number of axes: two positions and one axis make an object of one sightline. *)
Theorem C99_length_refuted : exists w a o p q, a_reload a = true /\ spectra w a = Good o /\
  cofm o = Rows [p; q] /\ axis o = [2%Z] /\ NumLos o = 1%nat.
Proof.
  exists ex_world, (ex_args (PRows true [[1; 2; 3]; [4; 5; 6]]%R) (ANum 2)).
  eexists (Object _ (Rows [[1; 2; 3]; [4; 5; 6]]%R) [2%Z] 1 (Some 3%Z) true true _). exists [1; 2; 3]%R, [4; 5; 6]%R. split; [reflexivity|].
  split; [apply C99_built; [reflexivity|]; exists ex_snap, 1%Z, 3%Z; split; [reflexivity|]|].
  - split; [constructor; cbn; auto 10|]. split; [constructor|]. split; [constructor; left; split; [lra|]; lra|].
    split; [reflexivity|]. split; [left; split; reflexivity|]. repeat (split; [reflexivity|]). reflexivity.
  - repeat split; reflexivity.
Qed.
Print Assumptions C99_length_refuted.

(** GriddedSpectra places exactly the sightlines of the regular grid, each once. *)
Theorem C99_gridded : forall w a nspec gx ax o, a_reload a = true -> (0 < nspec)%nat ->
  (forall s g, snapshots w (a_num a) (a_base a) = Found s g -> (0 < SetupModel.box s)%R) ->
  gridded w a nspec gx PNone ax = Good o ->
  exists s g pts, snapshots w (a_num a) (a_base a) = Found s g /\
    cofm o = Rows (map (fun p => [fst (fst p); snd (fst p); snd p]) pts) /\
    length (axis o) = length pts /\ NumLos o = (if (ax <? 0)%Z then 3 * (nspec * nspec) else nspec * nspec)%nat /\
    NoDup (combine (axis o) pts) /\
    forall x p, In (x, p) (combine (axis o) pts) <->
      ((ax < 0)%Z \/ x = ax) /\ grid_sightline (SetupModel.box s) nspec x p.
Proof. exact C99_gridded_aux. Qed.
Print Assumptions C99_gridded.

(** grid_axes without grid_cofm changes nothing; with reload_file=False neither does; grid_cofm without grid_axes always fails. *)
Theorem C99_gridargs : forall w a nspec gx gx' gc gc' ax,
  gridded w a nspec gx PNone ax = gridded w a nspec gx' PNone ax /\
  (a_reload a = false -> gridded w a nspec gx gc ax = gridded w a nspec gx' gc' ax) /\
  (a_reload a = true -> gc <> PNone -> forall o, gridded w a nspec ANone gc ax <> Good o).
Proof. exact C99_gridargs_aux. Qed.
Print Assumptions C99_gridargs.

(** RandSpectra shoots numlos sightlines along the first axis through the positions drawn. *)
Theorem C99_rand : forall w a numlos draw seed o, rand w a numlos draw seed false = Good o ->
  exists s g, snapshots w (a_num a) (a_base a) = Found s g /\
    cofm o = Rows (draw seed numlos (SetupModel.box s)) /\ axis o = repeat 1%Z numlos /\ NumLos o = numlos.
Proof. exact C99_rand_aux. Qed.
Print Assumptions C99_rand.

(** A RandSpectra can not be loaded from its file. *)
Theorem C99_randload_refuted : forall w a numlos draw seed o, rand w a numlos draw seed true <> Good o.
Proof. exact C99_randload_aux. Qed.
Print Assumptions C99_randload_refuted.

(** A list of three numbers and a plain axis make one sightline; the unknown kernel "top" and a list of lists do not. *)
Example C99_example :
  (exists o, spectra ex_world (ex_args (PFlat false [1; 2; 3]%R) (ANum 1)) = Good o /\ cofm o = Rows [[1; 2; 3]%R] /\
     axis o = [1%Z] /\ kernel_int o = Some 3%Z /\ path o = "/sim/SPECTRA_005/spectra.hdf5") /\
  spectra ex_world (ex_args (PRows false [[1; 2; 3]; [4; 5; 6]]%R) (AVec true [1; 1]%R)) = Raise AttributeE /\
  spectra ex_world (Args 5 "/sim" (PFlat false [1; 2; 3]%R) (ANum 1) None None "s" None true None (KStr "top") None (fun _ => GasOk)) = Raise TypeE /\
  spectra ex_world (Args 6 "/sim" (PFlat false [1; 2; 3]%R) (ANum 1) None None "s" None true None KNone None (fun _ => GasOk)) = Raise IOE.
Proof.
  split; [|split; [|split]].
  - eexists (Object _ (Rows [[1; 2; 3]%R]) [1%Z] 1 (Some 3%Z) true true _). split; [apply C99_built; [reflexivity|]; exists ex_snap, 1%Z, 3%Z; split; [reflexivity|]|].
    + split; [constructor; cbn; auto 10|]. split; [constructor|]. split; [constructor; left; split; [lra|]; lra|].
      split; [reflexivity|]. split; [left; split; reflexivity|]. repeat (split; [reflexivity|]). reflexivity.
    + repeat split; reflexivity.
  - apply (proj1 (proj2 (proj2 (C99_errors ex_world (ex_args _ _) eq_refl)) ltac:(right; exists ex_snap, 1%Z, 3%Z; split; [reflexivity|constructor; cbn; auto 10]))).
    intros c H. inversion H.
  - reflexivity.
  - reflexivity.
Qed.

(** The hypotheses of C99_gridded are met. *)
Example C99_gridded_example : exists o, gridded ex_world (ex_args PNone ANone) 2 ANone PNone (-1) = Good o /\ NumLos o = 12%nat.
Proof.
  eexists (Object _ _ [1; 1; 1; 1; 2; 2; 2; 2; 3; 3; 3; 3]%Z 12 (Some 3%Z) true true _). split; [|reflexivity]. unfold gridded. cbn [ex_args a_reload negb ex_world snapshots a_num a_base Nat.eqb].
  change (get_axes_and_cofm (SetupModel.box ex_snap) 2 (-1)) with
    (Some ([1; 1; 1; 1; 2; 2; 2; 2; 3; 3; 3; 3]%Z, map (scale_id (10000 / INR 2)) (grid_ids id_1 2 ++ grid_ids id_2 2 ++ grid_ids id_3 2))).
  apply C99_built; [reflexivity|]. exists ex_snap, 1%Z, 3%Z. split; [reflexivity|].
  split; [constructor; cbn; auto 10|]. split; [constructor|].
  split; [apply axis_takes; cbn [ex_args a_axis set_axis]; rewrite trunc_map; reflexivity|].
  split; [reflexivity|]. split; [left; split; reflexivity|]. repeat (split; [reflexivity|]). reflexivity.
Qed.

(** ** C100: from a file *)

(** With reload_file=False an object is made exactly when the file can be read and agrees with the resolution and Hubble rate asked; it has the sightlines and
    the header of the file.  If the snapshot is there the kernel must be valid; if not, the kernel is not looked at, and the object has no
    kernel and no gas properties. *)
Theorem C100_loaded : forall w a o, a_reload a = false ->
  (spectra w a = Good o <->
   exists f, files w (path o) = Some f /\
     cofm o = f_cofm f /\ axis o = f_axis f /\ NumLos o = length (f_axis f) /\
     SetupModel.from_file (header f) (a_units a) (a_res a) (a_Hz a) = SetupModel.Done (pixels o) /\
     path o = save_path (dirs w) (a_base a) (a_num a) (a_savedir a) (a_savefile a) /\
     ((snapshots w (a_num a) (a_base a) = NoSnapshot /\ kernel_int o = None /\ has_snapshot o = false /\ has_gas o = false) \/
      exists s g k, snapshots w (a_num a) (a_base a) = Found s g /\ takes_kernel g (a_kernel a) k /\
        kernel_int o = Some k /\ has_snapshot o = true /\
        ((a_gasprop a (pixels o) = GasOk /\ has_gas o = true) \/ (a_gasprop a (pixels o) = GasAttribute /\ has_gas o = false)))).
Proof. exact C100_loaded_aux. Qed.
Print Assumptions C100_loaded.

(** The positions, the axis and the number of pixels given are not looked at. *)
Theorem C100_ignored : forall w num base c x nb res sf sd u k h gp c' x' nb',
  spectra w (Args num base c x nb res sf sd false u k h gp) = spectra w (Args num base c' x' nb' res sf sd false u k h gp).
Proof. exact C100_ignored_aux. Qed.
Print Assumptions C100_ignored.

(** Nor is the content of the snapshot: a file of another simulation is accepted, and the object mixes the two. *)
Theorem C100_unchecked_refuted : forall w w' a s s' g, a_reload a = false ->
  dirs w = dirs w' -> files w = files w' ->
  snapshots w (a_num a) (a_base a) = Found s g -> snapshots w' (a_num a) (a_base a) = Found s' g ->
  spectra w a = spectra w' a.
Proof. exact C100_unchecked_aux. Qed.
Print Assumptions C100_unchecked_refuted.

(** Made, saved and loaded: the same object, whatever positions and axis are given the second time. *)
Theorem C100_roundtrip : forall w w' a b o s g,
  a_reload a = true -> spectra w a = Good o ->
  snapshots w (a_num a) (a_base a) = Found s g -> SetupProofs.sane s ->
  a_reload b = false -> a_num b = a_num a -> a_base b = a_base a -> a_savefile b = a_savefile a -> a_savedir b = a_savedir a ->
  a_kernel b = a_kernel a -> a_gasprop b = a_gasprop a -> a_Hz b = a_Hz a -> a_res b = None ->
  match a_units b, SetupModel.unit_length s with
  | Some u, Some v => u = v | None, None => True
  | Some u, None | None, Some u => u = 3.085678e21%R end ->
  dirs w' = dirs w -> snapshots w' = snapshots w -> files w' (path o) = Some (save o) ->
  spectra w' b = Good o.
Proof. exact C100_roundtrip_aux. Qed.
Print Assumptions C100_roundtrip.

Definition ex_after o ex := World (snapshots ex_world) ex (fun p => if String.eqb p "/sim/SPECTRA_005/spectra.hdf5" then Some (save o) else None).
Definition ex_load := Args 5 "/sim" PNone ANone None None "spectra.hdf5" None false None (KStr "quintic") None (fun _ => GasOk).

Example C100_example : forall o, spectra ex_world (ex_args (PFlat false [1; 2; 3]%R) (ANum 1)) = Good o ->
  spectra (ex_after o (fun _ => false)) ex_load = Good o.
Proof.
  intros o H. assert (P : path o = "/sim/SPECTRA_005/spectra.hdf5").
  { apply C99_built in H; [|reflexivity]. destruct H as (? & ? & ? & _ & _ & _ & _ & _ & _ & _ & _ & _ & ->). reflexivity. }
  eapply (C100_roundtrip ex_world); try exact H; try reflexivity.
  - unfold SetupProofs.sane; cbn. lra.
  - rewrite P. reflexivity.
Qed.

(** ** C101: the name of the file *)

(** By default the file is in snapdir_NNN of the simulation if that is there when the object is made, and in SPECTRA_NNN if not. *)
Theorem C101_place : forall exists_dir base n f, plain base -> relative f ->
  exists d1 d2, dir_of "snapdir_" base n d1 /\ dir_of "SPECTRA_" base n d2 /\
    (exists_dir d1 = true -> inside d1 f (save_path exists_dir base n None f)) /\
    (exists_dir d1 = false -> inside d2 f (save_path exists_dir base n None f)).
Proof. exact C101_place_aux. Qed.
Print Assumptions C101_place.

(** A directory given is used; an absolute file name is used as it is, whatever the directory. *)
Theorem C101_given : forall exists_dir base n d f, plain d -> relative f -> inside d f (save_path exists_dir base n (Some d) f).
Proof. exact C101_given_aux. Qed.
Print Assumptions C101_given.

Theorem C101_absolute : forall exists_dir base n d f, save_path exists_dir base n d (String "/" f) = String "/" f.
Proof. exact C101_absolute_aux. Qed.
Print Assumptions C101_absolute.

(** Two snapshots of a simulation never share a default file, whatever directories there are. *)
Theorem C101_distinct : forall ex ex' base n m f, plain base -> relative f ->
  save_path ex base n None f = save_path ex' base m None f -> n = m.
Proof. exact C101_distinct_aux. Qed.
Print Assumptions C101_distinct.

(** Spectra saved before the directory snapdir_NNN was made are not found after. *)
Theorem C101_moved_refuted : exists o, spectra ex_world (ex_args (PFlat false [1; 2; 3]%R) (ANum 1)) = Good o /\
  spectra (ex_after o (fun _ => false)) ex_load = Good o /\
  spectra (ex_after o (fun d => String.eqb d "/sim/snapdir_005")) ex_load = Raise IOE.
Proof.
  destruct C99_example as ((o & H & _) & _). exists o. split; [exact H|]. split; [exact (C100_example o H)|]. reflexivity.
Qed.
Print Assumptions C101_moved_refuted.

Example C101_example : plain "/sim" /\ relative "spectra.hdf5" /\
  save_path (fun _ => true) "/sim" 5 None "spectra.hdf5" = "/sim/snapdir_005/spectra.hdf5" /\
  save_path (fun _ => false) "/sim" 1234 None "spectra.hdf5" = "/sim/SPECTRA_1234/spectra.hdf5".
Proof. split; [exists "/si", "m"%char; split; [reflexivity|discriminate]|]. split; [cbn; discriminate|]. split; reflexivity. Qed.
