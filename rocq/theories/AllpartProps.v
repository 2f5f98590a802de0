(** C128: all particles near the sightlines. *)
From Coq Require Import Reals List Bool ZArith Arith Lia Lra.
From Verif Require Import ParticleModel ParticleSpec AllpartModel AllpartSpec AllpartProofs.
Import ListNotations.
Local Open Scope R_scope.

(** For a snapshot of HDF5 files find_all_particles returns position and smoothing length of exactly the particles which the search finds
    near the sightlines, each once, file after file, whether or not the lists were remembered from earlier reads. *)
Theorem C128_all : forall near segs count final tb rscale mass c,
  (forall k, (k < count)%nat -> sound near (segs k)) -> remembered near segs c ->
  exists pp hhh c', find_all_particles HDF5 count near final tb rscale mass segs c = (Done (pp, hhh), c') /\
    Forall2 (fun p x => nth_error (s_pos (fst p)) (snd p) = Some x) (nearby near segs 0 count) pp /\
    Forall2 (fun p x => nth_error (s_hh (fst p)) (snd p) = Some x) (nearby near segs 0 count) hhh /\
    remembered near segs c'.
Proof. exact C128_all_aux. Qed.
Print Assumptions C128_all.

(** Reading all files before the interpolation, as the Voronoi kernel does: the arrays describe the selected particles of every file. *)
Theorem C128_load : forall near segs count final tb q c, (0 < count)%nat ->
  b_lo (t_dens tb) <= b_hi (t_dens tb) -> b_lo (t_temp tb) <= b_hi (t_temp tb) ->
  (forall k, (k < count)%nat -> sound near (segs k)) -> remembered near segs c ->
  match fst (load_all HDF5 count near final tb q segs c) with
  | TypeError => False
  | Failed => r_hydrogen q = true /\ one_ion q /\ r_tau q = false
  | Done IndexError => False
  | Done Nothing => forall k, (k < count)%nat -> selects q (segs k) (near (s_pos (segs k)) (s_hh (segs k))) []
  | Done (Read a) => exists jss,
      Forall2 (fun k js => selects q (segs k) (near (s_pos (segs k)) (s_hh (segs k))) js) (seq 0 count) jss /\ concat jss <> [] /\
      describe tb q (concat (map (fun kj => tag (segs (fst kj)) (snd kj)) (combine (seq 0 count) jss))) a
  end.
Proof. exact C128_load_aux. Qed.
Print Assumptions C128_load.

(** For a BigFile snapshot both raise a TypeError: the number of segments is asked for without the particle type. *)
Theorem C128_bigfile_refuted : forall near segs count final tb rscale mass q c,
  fst (find_all_particles BigFile count near final tb rscale mass segs c) = TypeError /\
  (fst (read_particle_data near final tb q c 0 (segs 0%nat)) <> IndexError -> fst (load_all BigFile count near final tb q segs c) = TypeError).
Proof. exact C128_bigfile_aux. Qed.
Print Assumptions C128_bigfile_refuted.

(** The velocities which the documentation of find_all_particles promises have no influence on what it returns. *)
Theorem C128_velocities_refuted : forall f count near final tb rscale mass segs segs' c,
  (forall k, s_pos (segs k) = s_pos (segs' k) /\ s_hh (segs k) = s_hh (segs' k) /\ s_rho (segs k) = s_rho (segs' k) /\
     s_temp (segs k) = s_temp (segs' k) /\ s_frac (segs k) = s_frac (segs' k) /\ s_hi (segs k) = s_hi (segs' k)) ->
  find_all_particles f count near final tb rscale mass segs c = find_all_particles f count near final tb rscale mass segs' c.
Proof. exact C128_velocities_aux. Qed.
Print Assumptions C128_velocities_refuted.

(** Two files; one particle near in the second file, which was searched before. *)
Example C128_example :
  let seg x := Segment [(x, 1, 1); (x, 2, 2)] [1; 2] [(0, 0, 0); (0, 0, 0)] [1; 1] [1; 1] [1; 1] [1; 1] in
  let segs k := if Nat.eqb k 0 then seg 5 else seg 7 in
  let near p (_ : list R) := match p with (x, _, _) :: _ => if Rlt_dec x 6 then [] else [1%nat] | [] => [] end in
  (forall k, sound near (segs k)) /\ remembered near segs [(1%nat, [1%nat])] /\ nearby near segs 0 2 = [(seg 7, 1%nat)].
Proof.
  cbv zeta. split; [|split].
  - intros k. exists 2%nat. split; [destruct k; repeat split|].
    destruct k as [|k]; cbn [Nat.eqb s_pos s_hh]; [destruct (Rlt_dec 5 6)|destruct (Rlt_dec 7 6)]; repeat constructor; lia.
  - intros fn ind. cbn [lookup]. destruct (Nat.eqb_spec 1 fn) as [e|e]; [|discriminate]. intros H. injection H as <-. subst fn.
    cbn [Nat.eqb s_pos s_hh]. destruct (Rlt_dec 7 6); [lra|reflexivity].
  - unfold nearby. cbn [seq flat_map Nat.eqb s_pos s_hh]. destruct (Rlt_dec 5 6); [|lra]. destruct (Rlt_dec 7 6); [lra|]. reflexivity.
Qed.
