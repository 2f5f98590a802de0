(** Model of the column density statistics: Spectra.column_density_function (fake_spectra/spectra.py:1075-1123),
    _rho_abs (1125-1142), rho_DLA (1144-1152) and line_density (1182-1190), with the path lengths of
    UnitSystem (fake_spectra/unitsystem.py:31-55).

    Floats are real numbers; an exception is [None].  The array of column densities [rho] is that of
    get_col_density: one row per sightline. *)
From Coq Require Import ZArith List Reals Arith.
From Flocq Require Import Core.Raux Core.Generic_fmt Core.Round_NE.
From Verif Require Import AbsorptionSpec SightlineModel FluxModel.
Import ListNotations.
Local Open Scope R_scope.

(** unitsystem.py:42 and 51-55; the constants are arguments. *)
Definition absorption_distance (h100 light unitlength speclen red : R) : R :=
  h100 / light * speclen * unitlength * (1 + red) ^ 2.
(** unitsystem.py:42, with the definition above. *)
Definition redshift_distance (h100 light unitlength speclen red omegam : R) : R :=
  h100 * sqrt (omegam * (1 + red) ^ 3 + (1 - omegam)) / light * speclen * unitlength.

(** np.arange(a, b, s) for s > 0 *)
Definition arange (a b s : R) : list R :=
  map (fun i => a + INR i * s) (seq 0 (Z.to_nat (Zceil ((b - a) / s)))).

(** spectra.py:1101 *)
Definition nhi_table (minN maxN dlogN : R) : list R := map (Rpower 10) (arange minN maxN dlogN).

(** spectra.py:1102 *)
Fixpoint centers (l : list R) : list R :=
  match l with
  | x :: (y :: _) as t => ((x + y) / 2) :: centers t
  | _ => []
  end.

(** spectra.py:1115: np.max((int(np.round(close/self.dvbin)), 1)) *)
Definition close_bins (close dvbin : R) : nat := Z.to_nat (Z.max (ZnearestE (close / dvbin)) 1).

(** spectra.py:1116: sums of groups of cbins pixels of one row. *)
Definition rebin (cbins : nat) (row : list R) : list R :=
  map (fun i => rsum (py_slice (cbins * i) (cbins * (i + 1)) row)) (seq 0 (length row / cbins)).

(** column_density_function, spectra.py:1101-1123; [dist]: 1107-1110. *)
Definition column_density_function (minN maxN dlogN dist : R) (discarded : nat) (line : bool) (close dvbin : R)
    (rho : list (list R)) : list R * list R :=
  let table := nhi_table minN maxN dlogN in
  let tot_lines := INR (length rho) + INR discarded in
  let absorbers := if line then map rsum rho else concat (map (rebin (close_bins close dvbin)) rho) in
  (centers table,
   map (fun p => fst p / (snd p * dist * tot_lines)) (combine (histogram absorbers table) (diff table))).

(** np.where((col_den > thresh)*(col_den < upthresh)) *)
Definition selected (thresh upthresh : R) (col : list R) : list R :=
  filter (fun x => if Rlt_dec thresh x then if Rlt_dec x upthresh then true else false else false) col.

(** line_density, spectra.py:1182-1190; NaN for no sightlines. *)
Definition line_density (dist : R) (discarded : nat) (thresh upthresh : R) (rho : list (list R)) : option R :=
  let col := map rsum rho in
  match col with
  | [] => None
  | _ =>
      let frac := 1 * INR (length (selected thresh upthresh col)) / INR (length col) in
      Some (frac * (INR (length col) / (INR (length col) + 1 * INR discarded)) / dist)
  end.

(** _rho_abs, spectra.py:1125-1142.  Comparing an array with None raises a TypeError.  [mass]: lines.get_mass times the
    proton mass, [len]: the length of a sightline in cm. *)
Definition rho_abs (mass len red : R) (discarded : nat) (thresh : R) (upthresh : option R) (rho : list (list R)) : option R :=
  let col := map rsum rho in
  match col with
  | [] => None
  | _ =>
      let select :=
        match upthresh with
        | Some up => Some (rsum (selected thresh up col) / INR (length col))
        | None => if Rlt_dec 0 thresh then None else Some (rsum col / INR (length col))
        end in
      match select with
      | None => None
      | Some hiden =>
          Some (mass * (hiden * (INR (length col) / (INR (length col) + 1 * INR discarded))) / (1 + red) ^ 2 / len)
      end
  end.

(** rho_DLA, spectra.py:1144-1152; [conv]: the unit of the result. *)
Definition rho_DLA (mass len red conv : R) (discarded : nat) (thresh : R) (rho : list (list R)) : option R :=
  match rho_abs mass len red discarded thresh None rho with Some r => Some (r / conv) | None => None end.

(** omega_abs, spectra.py:1154-1163; [rho_crit]: the critical density. *)
Definition omega_abs (mass len red rho_crit : R) (discarded : nat) (thresh upthresh : R) (rho : list (list R)) : option R :=
  match rho_abs mass len red discarded thresh (Some upthresh) rho with Some r => Some (r / rho_crit) | None => None end.
