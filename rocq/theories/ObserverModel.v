(** Model of Spectra.get_observer_tau (fake_spectra/spectra.py:895-943, the part computing the array),
    spec_utils.res_corr (fake_spectra/spec_utils.py:5-26) and Spectra.equivalent_width
    (spectra.py:833-845).

    Floats are real numbers; an exception or NaN is [None].  scipy's gaussian_filter1d is modelled by its
    algorithm (truncate = 4, mode 'wrap') for a positive standard deviation. *)
From Coq Require Import ZArith List Reals Arith.
From Flocq Require Import Core.Raux.
From Verif Require Import AbsorptionSpec SightlineModel.
Import ListNotations.
Local Open Scope R_scope.

(** ** spec_utils.res_corr *)

(** spec_utils.py:19-21: the standard deviation in pixels. *)
Definition res_sigma (dvbin fwhm : R) : R := fwhm / dvbin / (2 * sqrt (2 * ln 2)).

(** scipy: radius int(truncate * sigma + 0.5) and the normalised weights. *)
Definition radius (sigma : R) : nat := Z.to_nat (Zfloor (4 * sigma + / 2)).
(** scipy: the weights before normalisation. *)
Definition raw_weight (sigma : R) (k : Z) : R := exp (- (1 / 2) / (sigma * sigma) * (IZR k * IZR k)).
(** scipy: the normalised weights. *)
Definition weight (sigma : R) (k : Z) : R := raw_weight sigma k / zsum (radius sigma) (raw_weight sigma).

(** correlate1d in 'wrap' mode. *)
Definition gaussian_filter (sigma : R) (l : list R) : list R :=
  map (fun i => zsum (radius sigma)
         (fun k => weight sigma k * nth (Z.to_nat ((Z.of_nat i + k) mod Z.of_nat (length l))) l 0))
      (seq 0 (length l)).

(** spec_utils.py:5-25 res_corr; [None] where the width is not a positive number. *)
Definition res_corr (dvbin fwhm : R) (flux : list R) : option (list R) :=
  if Req_EM_T dvbin 0 then None
  else if Rlt_dec 0 (res_sigma dvbin fwhm) then Some (gaussian_filter (res_sigma dvbin fwhm) flux)
  else None.

(** ** get_observer_tau *)

Definition row_min (l : list R) : option R :=
  match l with [] => None | x :: t => Some (fold_left Rmin t x) end.

(** np.where(l == v)[0][0] *)
Fixpoint where_equal (v : R) (l : list R) : option nat :=
  match l with
  | [] => None
  | x :: t => if Req_EM_T x v then Some O
              else match where_equal v t with Some i => Some (S i) | None => None end
  end.

(** The index in [peaks] of the largest of [among]. *)
Definition where_max (peaks among : list R) : option nat :=
  match row_max among with Some v => where_equal v peaks | None => None end.
(** The index in [peaks] of the smallest of [among]. *)
Definition where_min (peaks among : list R) : option nat :=
  match row_min among with Some v => where_equal v peaks | None => None end.

(** spectra.py:921-937: the index of the line for one sightline; [peaks]: maxtaus[:, ii]. *)
Definition choose_line (peaks : list R) : option nat :=
  let ind := filter (fun x => if Rlt_dec x 3 then if Rlt_dec (/ 10) x then true else false else false) peaks in
  if negb (Nat.eqb (length ind) 0) then where_max peaks ind
  else
    let ind2 := filter (fun x => if Rlt_dec (/ 10) x then true else false) peaks in
    if negb (Nat.eqb (length ind2) 0) then where_min peaks ind2
    else where_max peaks peaks.

(** The maximum of one smoothed spectrum, 916. *)
Definition peak (dvbin fwhm : R) (row : list R) : option R :=
  match res_corr dvbin fwhm row with Some r => row_max r | None => None end.

(** spectra.py:907-938; [tau]: one array of sightlines for each line, in the order of the line table. *)
Definition observer_row (dvbin fwhm : R) (tau : list (list (list R))) (ii : nat) : option (list R) :=
  match all_some (map (fun t => peak dvbin fwhm (nth ii t [])) tau) with
  | None => None
  | Some peaks =>
      match choose_line peaks with
      | None => None
      | Some line => Some (nth ii (nth line tau []) [])
      end
  end.

(** spectra.py:907-938, all sightlines *)
Definition observer_tau (dvbin fwhm : R) (numlos : nat) (tau : list (list (list R))) : option (list (list R)) :=
  all_some (map (observer_row dvbin fwhm tau) (seq 0 numlos)).

(** ** equivalent_width *)

(** np.trapz(y, dx=dx) of one row. *)
Fixpoint trapz (dx : R) (y : list R) : R :=
  match y with
  | a :: (b :: _) as t => dx * (a + b) / 2 + trapz dx t
  | _ => 0
  end.

(** spectra.py:838-843; [light]: the speed of light in cm/s. *)
Definition equivalent_width (dvbin light line : R) (tau : list (list R)) : list R :=
  map (fun row => trapz (dvbin / (light / 100000) * line) (map (fun t => 1 - exp (- t)) row)) tau.
