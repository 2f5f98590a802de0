(** Model of the statistics of host halos: fake_spectra/haloassigned_spectra.py:28-47 (mass_hist), 208-220
    (get_stellar_mass_function), 222-248 (_plot_breakdown), and of plot_temp, fake_spectra/plot_spectra.py:121-133.

    Floats are real numbers; an exception or an array of NaN is [None].  The halo of each sightline is that of find_nearest_halo
    (HaloModel), -1 without one. *)
From Coq Require Import ZArith List Reals Bool.
From Verif Require Import AbsorptionSpec FluxModel.
From Verif Require HaloModel CddfModel MetalModel.
Import ListNotations.
Local Open Scope R_scope.

(** np.log10. *)
Definition log10 (x : R) : R := ln x / ln 10.

(** np.log10 of nonnegative numbers for a histogram: that of zero is minus infinity, below every edge. *)
Definition logs (l : list R) : list R := map log10 (filter (fun x => if Rlt_dec 0 x then true else false) l).

(** haloassigned_spectra.py:28-47; [vel i] is the virial velocity of halo i (HaloModel.virial_vel).  np.arange raises for an end at
    minus infinity (all velocities zero). *)
Definition mass_hist (vel : Z -> R) (halos : list Z) (dm : R) : option (list R * list R) :=
  let virial := map vel (filter HaloModel.hist_keeps halos) in
  match MetalModel.min_of virial, MetalModel.max_of virial with
  | Some lo, Some hi =>
      if Rle_dec hi 0 then None else
      let m_table := map (Rpower 10) (CddfModel.arange (log10 (lo + 1 / 10)) (log10 hi) dm) in
      let mbin := CddfModel.centers m_table in
      match MetalModel.density (logs virial) (map log10 m_table) with
      | Some pdf => Some (mbin, pdf)
      | None => None
      end
  | _, _ => None
  end.

(** np.histogram(l, edges)[0] *)
Definition counts (l edges : list R) : list R :=
  match edges with _ :: _ :: _ => histogram l edges | _ => [] end.

(** haloassigned_spectra.py:222-245: bin centres and, for every range of virial velocities, the curve drawn.  [absorbers]: value and
    halo of the selected sightlines.  With log a value which is not positive has no finite logarithm, and np.arange raises; there are
    three colours, and a fourth range raises an IndexError. *)
Definition plot_breakdown (vel : Z -> R) (log : bool) (dv : R) (absorbers : list (R * Z)) (ranges : list (R * R))
  : option (list R * list (list R)) :=
  let array := map fst absorbers in
  let scaled := if log then map log10 array else array in
  if log && existsb (fun x => if Rle_dec x 0 then true else false) array then None else
  match MetalModel.min_of scaled, MetalModel.max_of scaled with
  | Some lo, Some hi =>
      if Nat.ltb 3 (length ranges) then None else
      let steps := CddfModel.arange lo hi dv in
      let v_table := if log then map (Rpower 10) steps else steps in
      let vhist := map (fun c => if Req_EM_T c 0 then 1 else c) (counts array v_table) in
      let with_halo := filter (fun a => HaloModel.plot_keeps (snd a)) absorbers in
      let row r := filter (fun a => (if Rlt_dec (fst r) (vel (snd a)) then true else false) &&
                                    (if Rlt_dec (vel (snd a)) (snd r) then true else false)) with_halo in
      Some (CddfModel.centers v_table,
            map (fun r => map (fun p => fst p / (1 * snd p)) (combine (counts (map fst (row r)) v_table) vhist)) ranges)
  | _, _ => None
  end.

(** haloassigned_spectra.py:208-220; [raw]: GroupMassType[:,4] of the halo catalogue. *)
Definition get_stellar_mass_function (raw : list R) : list R * list R :=
  let stellar_mass := map (fun m => m * 10 ^ 10 / (7 / 10)) raw in
  let bins := map (fun i => Rpower 10 (6 + INR i * (6 / 49))) (seq 0 50) in
  let dlogM := log10 (nth 1 bins 0) - log10 (nth 0 bins 0) in
  let volume := (25 / (7 / 10)) ^ 3 in
  (CddfModel.centers bins, map (fun c => c / volume / dlogM) (histogram stellar_mass bins)).

(** plot_spectra.py:121-130: the points handed to the contour plot, one for each sightline whose mean temperature is a number
    below 1e5: the total density and the mean temperature, from the pixels with a density of at least 1e-6. *)
Definition dense (den : list R) : list R := map (fun d => if Rlt_dec d (/ 10 ^ 6) then 0 else d) den.
(** plot_spectra.py:121-130, with the definition above. *)
Definition plot_temp (temp den : list (list R)) : list (R * R) :=
  flat_map (fun p =>
    let d := dense (snd p) in
    let w := rsum (map (fun q => fst q * snd q) (combine (fst p) d)) in
    if Req_EM_T (rsum d) 0 then []
    else if Rlt_dec (w / rsum d) (10 ^ 5) then [(rsum d, w / rsum d)] else [])
  (combine temp den).
