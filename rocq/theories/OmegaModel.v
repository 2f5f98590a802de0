(** Model of the path lengths of UnitSystem (fake_spectra/unitsystem.py:31-62), of the matter density in
    absorbers from the column density function, Spectra.omega_abs_cddf (fake_spectra/spectra.py:1165-1180), of
    the column density function of fitted absorbers, Spectra.column_density_from_voigt (spectra.py:1051-1073)
    with voigtfit.get_voigt_systems (fake_spectra/voigtfit.py:304-319), and of Spectra.line_density_eq_w
    (spectra.py:1192-1202).

    Floats are real numbers; an exception is [None].  The path lengths absorption_distance and
    redshift_distance are in CddfModel. *)
From Coq Require Import ZArith List Reals Arith.
From Verif Require Import AbsorptionSpec SightlineModel FluxModel CddfModel ObserverModel.
Import ListNotations.
Local Open Scope R_scope.

(** unitsystem.py:53-55 *)
Definition hubble_rate (h100 z omegam : R) : R := h100 * sqrt (omegam * (1 + z) ^ 3 + (1 - omegam)).

(** unitsystem.py:57-62 *)
Definition rho_crit (h100 grav hubble : R) : R := 3 * (h100 * hubble) ^ 2 / (8 * PI * grav).

(** The constants of the unit system and the parameters of the simulation used below. *)
Record setup := mkSetup {
  u_h100 : R; u_light : R; u_length : R; u_grav : R;
  s_box : R; s_red : R; s_hubble : R; s_omegam : R }.

(** spectra.py:1060-1063 and 1107-1110 *)
Definition path (S : setup) (dX : bool) : R :=
  if dX then absorption_distance (u_h100 S) (u_light S) (u_length S) (s_box S) (s_red S)
  else redshift_distance (u_h100 S) (u_light S) (u_length S) (s_box S) (s_red S) (s_omegam S).

(** column_density_function with its path length. *)
Definition cddf (S : setup) (minN maxN dlogN : R) (discarded : nat) (line : bool) (close dvbin : R) (dX : bool)
    (rho : list (list R)) : list R * list R :=
  column_density_function minN maxN dlogN (path S dX) discarded line close dvbin rho.

(** np.trapz(y, x) *)
Fixpoint trapz_xy (y x : list R) : R :=
  match y, x with
  | a :: (b :: _) as ty, c :: (d :: _) as tx => (d - c) * (a + b) / 2 + trapz_xy ty tx
  | _, _ => 0
  end.

(** np.log10. *)
Definition log10 (x : R) : R := ln x / ln 10.

(** spectra.py:1165-1180; [mass]: lines.get_mass times the proton mass. *)
Definition omega_abs_cddf (S : setup) (mass : R) (discarded : nat) (thresh upthresh close dvbin : R)
    (rho : list (list R)) : R :=
  let dlogN := 2 / 10 in
  let '(bins, f) := cddf S (log10 thresh) (log10 upthresh) dlogN discarded true close dvbin true rho in
  let moment := map (fun p => fst p * snd p) (combine f bins) in
  let h100 := u_h100 S * s_hubble S in
  mass / u_light S * h100 / rho_crit (u_h100 S) (u_grav S) (s_hubble S) * trapz_xy moment bins.

(** spectra.py:1154-1163 with the length of 1139 and the critical density. *)
Definition omega_direct (S : setup) (mass : R) (discarded : nat) (thresh upthresh : R) (rho : list (list R)) : option R :=
  omega_abs mass (s_box S * u_length S / s_hubble S) (s_red S) (rho_crit (u_h100 S) (u_grav S) (s_hubble S))
    discarded thresh upthresh rho.

(** voigtfit.py:304-319: the systems of every spectrum one after the other.  [fit]: the column densities of
    the merged systems of one spectrum (Profiles.do_fit and get_systems).  pool.map keeps the order;
    zip of no results raises a ValueError. *)
Definition voigt_systems (fit : list R -> list R) (taus : list (list R)) : option (list R) :=
  match taus with [] => None | _ => Some (concat (map fit taus)) end.

(** spectra.py:1051-1073; [NumLos]: the number of sightlines, which is also the length of tau. *)
Definition column_density_from_voigt (S : setup) (fit : list R -> list R) (minN maxN dlogN : R) (discarded : nat)
    (dX : bool) (nspectra : Z) (tau : list (list R)) : option (list R * list R) :=
  let table := nhi_table minN maxN dlogN in
  let numlos := INR (length tau) in
  let tot_lines := numlos + INR discarded in
  let used := if (0 <? nspectra)%Z then firstn (Z.to_nat nspectra) tau else tau in
  let tot_lines := if (0 <? nspectra)%Z then tot_lines * (IZR nspectra / numlos) else tot_lines in
  match voigt_systems fit used with
  | None => None
  | Some n_vals =>
      Some (centers table,
            map (fun p => fst p / (snd p * path S dX * tot_lines)) (combine (histogram n_vals table) (diff table)))
  end.

(** spectra.py:1192-1202; [None]: 0/0 for no sightlines at all. *)
Definition line_density_eq_w (S : setup) (dvbin line : R) (discarded : nat) (thresh : R) (tau : list (list R)) : option R :=
  let eq_width := equivalent_width dvbin (u_light S) line tau in
  match (length eq_width + discarded)%nat with
  | O => None
  | _ =>
      let frac := 1 * INR (length (filter (fun x => if Rlt_dec thresh x then true else false) eq_width)) in
      let frac := frac / (INR (length eq_width) + 1 * INR discarded) in
      Some (frac / path S true)
  end.
