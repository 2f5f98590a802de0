(** Model of the mean absolute curvature of the flux: fake_spectra/spectra.py:1452-1524 (compute_curvature, get_curvature).
    Exact real arithmetic.  The noise and the spline fit of get_curvature are modelled elsewhere (C44, C69): here the flux, whether
    exp(-tau) or the spline, is an argument. *)
From Coq Require Import List Reals Bool ZArith.
From Flocq Require Import Core.Raux.
From Verif Require Import RescaleModel SightlineModel.
Import ListNotations.
Local Open Scope R_scope.

(** np.linspace(0, vmax, nbins)[i], spectra.py:1460. *)
Definition velocity (vmax : R) (nbins i : nat) : R := INR i * (vmax / (INR nbins - 1)).

(** np.gradient(f, x, edge_order=2)[i], spectra.py:1472,1474, by numpy's formulas for unequal spacings; those for equal spacings are
    the same with dx1 = dx2. *)
Definition gradient_at (f x : list R) (i : nat) : R :=
  let n := length f in
  if Nat.eqb i 0 then
    let dx1 := nth 1 x 0 - nth 0 x 0 in
    let dx2 := nth 2 x 0 - nth 1 x 0 in
    - (2 * dx1 + dx2) / (dx1 * (dx1 + dx2)) * nth 0 f 0 + (dx1 + dx2) / (dx1 * dx2) * nth 1 f 0 - dx1 / (dx2 * (dx1 + dx2)) * nth 2 f 0
  else if Nat.eqb i (n - 1) then
    let dx1 := nth (n - 2) x 0 - nth (n - 3) x 0 in
    let dx2 := nth (n - 1) x 0 - nth (n - 2) x 0 in
    dx2 / (dx1 * (dx1 + dx2)) * nth (n - 3) f 0 - (dx2 + dx1) / (dx1 * dx2) * nth (n - 2) f 0 + (2 * dx2 + dx1) / (dx2 * (dx1 + dx2)) * nth (n - 1) f 0
  else
    let dx1 := nth i x 0 - nth (i - 1) x 0 in
    let dx2 := nth (i + 1) x 0 - nth i x 0 in
    - dx2 / (dx1 * (dx1 + dx2)) * nth (i - 1) f 0 + (dx2 - dx1) / (dx1 * dx2) * nth i f 0 + dx1 / (dx2 * (dx1 + dx2)) * nth (i + 1) f 0.

(** np.gradient for all pixels, spectra.py:1472,1474. *)
Definition gradient (f x : list R) : list R := map (gradient_at f x) (seq 0 (length f)).

(** np.where of 0.1 < F < 0.9, spectra.py:1467. *)
Definition inside (f : R) : bool := if Rlt_dec 0.1 f then if Rlt_dec f 0.9 then true else false else false.
(** spectra.py:1467, with the definition above. *)
Definition flux_range (row : list R) : list nat := filter (fun i => inside (nth i row 0)) (seq 0 (length row)).

(** np.mean. *)
Definition mean (l : list R) : R := fold_right Rplus 0 l / INR (length l).

(** spectra.py:1467-1477 for one section; None is the IndexError of a velocity that does not exist. *)
Definition section_curvature (vmax : R) (nbins : nat) (row : list R) : option R :=
  let idx := flux_range row in
  if Nat.ltb 2 (length idx) then
    if forallb (fun i => Nat.ltb i nbins) idx then
      let x := map (velocity vmax nbins) idx in
      let p := gradient (map (fun i => nth i row 0) idx) x in
      let pp := gradient p x in
      Some (mean (map (fun q => Rabs (snd q / Rpower (1 + fst q ^ 2) (3 / 2))) (combine p pp)))
    else None
  else Some 0.

(** spectra.py:1452-1482; the sections without curvature are left out. *)
Definition compute_curvature (vmax : R) (nbins : nat) (flux : list (list R)) : option (list R) :=
  option_map (filter (fun c => if Rlt_dec 0 c then true else false)) (all_some (map (section_curvature vmax nbins) flux)).

(** fluxstatistics.py:21-24 with the redshift 1/atime - 1 *)
Definition obs_mean_tau (redshift : R) : R := 0.0023 * Rpower (1 + redshift) 3.65.

(** The comparison with zero. *)
Definition positive (x : R) : bool := if Rlt_dec 0 x then true else false.

(** spectra.py:1519: flux ** scale for the positive flux.  If the factor is an infinity or nan, one to that power is one and anything
    else is zero, infinite or nan, which compute_curvature leaves out; modelled as zero. *)
Definition rescaled (scale : factor) (x : R) : R :=
  if positive x then
    match scale with
    | Finite s => Rpower x s
    | NotFinite => if Req_EM_T x 1 then 1 else 0
    end
  else x.

(** spectra.py:1439-1444 (in renormalize_flux), one section.  If its maximum is zero numpy divides by zero and has nan or minus
    infinity there, with a warning; every test in get_curvature is false for those as it is for zero, which stands for them here. *)
Definition section (n_inds : nat) (row : list R) (i : nat) : option (list R) :=
  let sec := py_slice (i * n_inds) ((i + 1) * n_inds + 1) row in
  if Nat.eqb (length sec) (n_inds + 1) then
    match row_max sec with
    | Some m => Some (map (fun x => if Req_EM_T m 0 then 0 else x / m) sec)
    | None => None
    end
  else None.

(** spectra.py:1410-1449 (renormalize_flux), as [SightlineModel.renormalize_flux] but for the sections without maximum. *)
Definition flux_sections (vmax velfac box section_size : R) (npix : nat) (flux : list (list R)) : option (list (list R)) :=
  if Nat.eqb npix 1 then None
  else
    let vel_stepsize := vmax / (INR npix - 1) in
    if Rlt_dec section_size (vel_stepsize / velfac) then None
    else if Rlt_dec box section_size then None
    else
      let n_sections := box / section_size in
      let n_inds := Z.to_nat (Zfloor (vmax / (n_sections * vel_stepsize))) in
      all_some (flat_map (fun i => map (fun row => section n_inds row i) flux) (seq 0 (Z.to_nat (Zfloor n_sections)))).

(** spectra.py:1508-1524 on the flux.  [parts] is how the threads divide the pixels, as in mean_flux; None for an exception
    or if the iteration of the factor does not end within [fuel]. *)
Definition get_curvature (parts : list R -> nat -> list (list R)) (fuel : nat) (vmax velfac box atime section_size : R) (nbins : nat)
    (flux : list (list R)) : option (list R) :=
  let size := if Req_EM_T section_size 0 then box else section_size in
  match flux_sections vmax velfac box size nbins flux with
  | None => None
  | Some secs =>
      let tau := map (fun x => - ln x) (filter positive (concat secs)) in
      match mean_flux (parts tau) tau (exp (- obs_mean_tau (1 / atime - 1))) 0.00001 1e30 fuel with
      | None => None
      | Some scale => compute_curvature vmax nbins (map (map (rescaled scale)) secs)
      end
  end.
