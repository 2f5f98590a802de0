(** Model of fake_spectra/gas_properties.py: the self-shielded neutral fraction
    and its use for star forming gas.  Exact real arithmetic.  [Rpower] agrees
    with python's power for positive bases only: temperatures, densities, the
    opacity and the baryon fraction are meant to be positive. *)
From Coq Require Import Reals List Bool Arith Lia Lra.
Import ListNotations.
Local Open Scope R_scope.

(** scipy.interpolate.interp1d (external): linear interpolation between
    knots in increasing order, ValueError ([None]) outside them. *)
Fixpoint interp1d (knots : list (R * R)) (x : R) : option R :=
  match knots with
  | (x0, y0) :: (((x1, y1) :: _) as rest) =>
      if Rlt_dec x x0 then None
      else if Rle_dec x x1 then Some (y0 + (y1 - y0) * (x - x0) / (x1 - x0))
      else interp1d rest x
  | _ => None
  end.

(** gas_properties.py:43-45 the tables of the ultraviolet background *)
Definition gray_table : list (R * R) :=
  [(0, 2.59e-18); (1, 2.37e-18); (2, 2.27e-18); (3, 2.15e-18); (4, 2.02e-18);
   (5, 1.94e-18); (6, 1.82e-18); (7, 1.71e-18); (8, 1.60e-18)].
(** gas_properties.py:43-45, with the definition above. *)
Definition gamma_table : list (R * R) :=
  [(0, 3.99e-14); (1, 3.03e-13); (2, 6e-13); (3, 5.53e-13); (4, 4.31e-13);
   (5, 3.52e-13); (6, 2.678e-13); (7, 1.81e-13); (8, 9.43e-14)].

(** The ultraviolet background of a GasProperties object. *)
Record uvb := Uvb { gray_opac : R; gamma_UVB : R; f_bar : R }.

(** gas_properties.py:46-55: [None] is the ValueError of interp1d, [Some None]
    a redshift above the table (redshift_coverage False). *)
Definition uvb_of (redshift fbar : R) : option (option uvb) :=
  if Rlt_dec 8 redshift then Some None
  else match interp1d gamma_table redshift, interp1d gray_table redshift with
       | Some ga, Some gr => Some (Some (Uvb gr ga fbar))
       | _, _ => None
       end.

(** gas_properties.py:75-85 _self_shield_dens *)
Definition self_shield_dens (b : uvb) (temp : R) : R :=
  6.73e-3 * Rpower (gray_opac b / 2.49e-18) (-2 / 3) * Rpower (temp / 1e4) 0.17
  * Rpower (gamma_UVB b / 1e-12) (2 / 3) * Rpower (f_bar b / 0.17) (-1 / 3).

(** gas_properties.py:64-73 _photo_rate *)
Definition photo_rate (b : uvb) (nH temp : R) : R :=
  let nssh := self_shield_dens b temp in
  (0.98 * Rpower (1 + Rpower (nH / nssh) 1.64) (-2.28)
   + 0.02 * Rpower (1 + nH / nssh) (-0.84)) * gamma_UVB b.

(** gas_properties.py:87-91 _recomb_rate *)
Definition recomb_rate (temp : R) : R :=
  let lamb := 315614 / temp in
  1.269e-13 * Rpower lamb 1.503 / Rpower (1 + Rpower (lamb / 0.522) 0.47) 1.923.

(** gas_properties.py:97 LambdaT, the collisional ionisation rate *)
Definition collisional_rate (temp : R) : R :=
  1.17e-10 * Rpower temp 0.5 * exp (-157809 / temp) / (1 + sqrt (temp / 1e5)).

(** gas_properties.py:93-100 _neutral_fraction *)
Definition neutral_fraction (b : uvb) (nH temp : R) : R :=
  let alpha_A := recomb_rate temp in
  let LambdaT := collisional_rate temp in
  let A := alpha_A + LambdaT in
  let B := 2 * alpha_A + photo_rate b nH temp / nH + LambdaT in
  (B - sqrt (B * B - 4 * A * alpha_A)) / (2 * A).

(** What get_reproc_HI reads of the object: [thresh] is PhysDensThresh and
    [conv] the conversion of code densities to atoms per cm^3. *)
Record gas := Gas { bg : option uvb; sf_neutral : bool; thresh : R; conv : R }.

(** gas_properties.py:138-145, one particle *)
Definition reproc1 (g : gas) (density code : R) : R :=
  if Rlt_dec (thresh g / 0.76 / conv g) density then
    match bg g with
    | Some b => neutral_fraction b (density * conv g) 1e4
    | None => 1
    end
  else code.

(** gas_properties.py:117-146 get_reproc_HI: [densities] and [codes] are the
    Density and NeutralHydrogenFraction arrays of the segment. *)
Definition get_reproc_HI (g : gas) (densities codes : list R) : list R :=
  if sf_neutral g then map (fun dc => reproc1 g (fst dc) (snd dc)) (combine densities codes)
  else codes.
