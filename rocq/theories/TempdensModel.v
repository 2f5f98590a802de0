(** Model of fake_spectra/tempdens.py: the temperature-density relation of the gas, over exact reals. *)
From Coq Require Import List Bool Reals.
From Verif Require Import QuantModel GaspropModel OmegaModel.
Import ListNotations.
Local Open Scope R_scope.

(** Comparison of numbers. *)
Definition ltb (x y : R) : bool := if Rlt_dec x y then true else false.
(** np.log10. *)
Definition log10 (x : R) : R := ln x / ln 10.

(** tempdens.py:16-27; unitsystem.py:57-62 with its constants h100 and gravcgs (25, 27).  The argument [unit] is not used. *)
Definition mean_density (hub redshift : R) (unit : units) (omegab : R) : R :=
  let rhoc := rho_crit 3.2407789e-18 6.674e-8 hub in
  rhoc / protonmass * omegab * (1 + redshift) ^ 3.

(** tempdens.py:31-34: the particles used for the fit, as pairs of the logarithms of overdensity and temperature. *)
Definition selected (p : R * R) : bool :=
  ltb 0 (fst p) && ltb (fst p) 1 && ltb 0.1 (snd p) && ltb (snd p) 5.

(** What the fit returns, or the TypeError of leastsq for fewer points than parameters. *)
Inductive fitted := Fit (T0 gamma : R) | TypeErr.

Section Fit.
(** scipy's leastsq (external) for the residuals of 36-41: intercept and slope. *)
Variable leastsq : list (R * R) -> R * R.

(** tempdens.py:29-47 *)
Definition fit_temp_dens_relation (pts : list (R * R)) : fitted :=
  let sel := filter selected pts in
  if Nat.ltb (length sel) 2 then TypeErr
  else let (a, b) := leastsq sel in Fit (Rpower 10 a) (b + 1).
End Fit.

(** numpy's sort. *)
Fixpoint insert (x : R) (l : list R) : list R :=
  match l with
  | [] => [x]
  | y :: t => if Rle_dec x y then x :: l else y :: insert x t
  end.
(** np.sort. *)
Definition sort (l : list R) : list R := fold_right insert [] l.

(** numpy's median; None is the NaN of an empty array. *)
Definition median (l : list R) : option R :=
  let s := sort l in
  let n := length s in
  if Nat.eqb n 0 then None
  else if Nat.odd n then Some (nth (Nat.div n 2) s 0)
  else Some ((nth (Nat.div n 2 - 1) s 0 + nth (Nat.div n 2) s 0) / 2).

(** tempdens.py:49-53: pairs of overdensity and temperature. *)
Definition get_temp_meandensity (pts : list (R * R)) : option R :=
  median (map snd (filter (fun p => ltb 0.95 (fst p) && ltb (fst p) 1.05) pts)).

(** tempdens.py:55-86 and 109, without the plot: the median temperature that is printed and the fit.  [raw]: gas="raw"; the other
    object is made without units, so it has the default ones.  [temps]: the temperatures of the gas object. *)
Definition fit_td_rel (leastsq : list (R * R) -> R * R) (raw : bool) (unit : units) (hubble redshift omegab : R)
    (densities temps : list R) : option R * fitted :=
  let dens := get_code_rhoH (if raw then unit else default_units) hubble redshift densities in
  let mean := mean_density hubble redshift unit omegab in
  let pts := combine dens temps in
  (get_temp_meandensity (map (fun p => (fst p / mean, snd p)) pts),
   fit_temp_dens_relation leastsq (map (fun p => (log10 (fst p) - log10 mean, log10 (snd p))) pts)).
