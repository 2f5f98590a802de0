(** Model of how fake_spectra/spectra.py and ratenetworkspectra.py build the object for the gas, of its conversion of densities
    and of its star formation threshold (gas_properties.py), over exact reals: the rounding of the factor to 32 bits
    (gas_properties.py:110, 140) is not modelled. *)
From Coq Require Import Ascii String List Bool Reals.
From Verif Require Import QuantModel NeutralModel.
Import ListNotations.
Local Open Scope R_scope.

(** ** Densities *)

(** unitsystem.py:14 *)
Definition density_unit (u : units) : R := u_mass u / u_length u ^ 3.

(** unitsystem.py:21 *)
Definition protonmass : R := 1.67262178e-24.

(** gas_properties.py:110, 140 *)
Definition density_conv (u : units) (hubble redshift : R) : R :=
  density_unit u * hubble ^ 2 / protonmass * (1 + redshift) ^ 3.

(** gas_properties.py:107-112; [densities] is the block Density of the segment. *)
Definition get_code_rhoH (u : units) (hubble redshift : R) (densities : list R) : list R :=
  map (fun d => d * density_conv u hubble redshift) densities.

(** gas_properties.py:148-200 with its default parameters; gas_properties.py:57-59 for gamma and boltzmann. *)
Definition get_rho_thresh (u : units) (hubble : R) : R :=
  let gamma := 5 / 3 in
  let boltzmann := 1.38066e-16 in
  let T_SN := 5.73e7 in
  let T_c := 1000 in
  let A_0 := 573 in
  let unit_time := u_length u / u_vel u in
  let hy_mass := 0.76 in
  let t_0_star := 2.27 * unit_time / hubble in
  let beta := 0.264089 in
  let meanweight_c := 4 / (1 + 3 * hy_mass) in
  let u_c := 1 / meanweight_c * (1 / (gamma - 1)) * (boltzmann / protonmass) * T_c in
  let meanweight := 4 / (8 - 5 * (1 - hy_mass)) in
  let u_SN := 1 / meanweight * (1 / (gamma - 1)) * (boltzmann / protonmass) * T_SN in
  let rhoinf := 277.476 * density_unit u * hubble ^ 2 in
  let tcool := 4.64419e-10 * unit_time / hubble in
  let u_h := u_SN / A_0 in
  let u_4 := 1 / meanweight * (1 / (gamma - 1)) * (boltzmann / protonmass) * 1e4 in
  let coolrate := u_h / tcool / rhoinf in
  let x := (u_h - u_4) / (u_h - u_c) in
  let physdens := x / (1 - x) ^ 2 * (beta * u_SN - (1 - beta) * u_c) / (t_0_star * coolrate) in
  physdens / protonmass * hy_mass.

(** ** The object *)

(** Values of keyword arguments. *)
Inductive value := VNum (x : R) | VUnits (u : option units) | VFlag (b : bool) | VOther.

(** A dictionary of keyword arguments: the last entry of a name counts. *)
Definition kwargs := list (string * value).
(** Access to a keyword argument. *)
Fixpoint arg (k : kwargs) (name : string) : option value :=
  match k with
  | [] => None
  | (n, v) :: k' => match arg k' name with Some w => Some w | None => if String.eqb name n then Some v else None end
  end.

(** dict.update (spectra.py:258) *)
Definition update (k extra : kwargs) : kwargs := k ++ extra.

(** spectra.py:256-258; [absnap] is left out of the values. *)
Definition gprop_args (red hubble : R) (u : units) (sf : bool) (gasprop_args : option kwargs) : kwargs :=
  let base := [("redshift", VNum red); ("absnap", VOther); ("hubble", VNum hubble); ("units", VUnits (Some u)); ("sf_neutral", VFlag sf)]%string in
  match gasprop_args with Some extra => update base extra | None => base end.

(** ratenetworkspectra.py:130-140: the dictionary RateNetworkSpectra passes; a dictionary given by the caller is replaced. *)
Definition ratenetwork_args (photo_factor : value) (selfshield : bool) (temp_factor gamma_factor hubble fbar : R) (treecool : value)
  : option kwargs :=
  Some [("photo_factor", photo_factor); ("selfshield", VFlag selfshield); ("temp_factor", VNum temp_factor);
        ("gamma_factor", VNum gamma_factor); ("hubble", VNum hubble); ("fbar", VNum fbar); ("treecool_file", treecool)]%string.

(** What the object keeps: gas_properties.py:29-62. *)
Record gasprop := mkGasprop { g_red : R; g_hubble : R; g_fbar : R; g_units : units; g_sf : bool }.

(** The parameters of GasProperties.__init__ (gas_properties.py:29), of RateNetworkGas.__init__ (ratenetworkspectra.py:11) and of
    the keywords it hands on to RateNetwork (rate_network.py:47; f_bar is given already). *)
Definition gas_params : list string := ["redshift"; "absnap"; "hubble"; "fbar"; "units"; "sf_neutral"]%string.
(** ratenetworkspectra.py:11 and rate_network.py:47. *)
Definition network_params : list string :=
  (gas_params ++ ["temp_factor"; "gamma_factor"; "photo_factor"; "converge"; "selfshield"; "cool"; "recomb"; "collisional"; "treecool_file"]%string)%list.

(** Reading a number, a flag or units with a default. *)
Definition num (k : kwargs) (n : string) (d : R) : R := match arg k n with Some (VNum x) => x | _ => d end.
(** Reading a flag. *)
Definition flag (k : kwargs) (n : string) (d : bool) : bool := match arg k n with Some (VFlag b) => b | _ => d end.
(** Reading units. *)
Definition unit_arg (k : kwargs) : units := match arg k "units"%string with Some (VUnits (Some u)) => u | _ => default_units end.

(** Constructing GasProperties or RateNetworkGas ([network]): gas_properties.py:29-62, ratenetworkspectra.py:11-15.  None is a
    TypeError: a keyword without parameter.  Arguments are meant to have the kind of their parameter, and the redshift and
    the snapshot to be there. *)
Definition init (network : bool) (k : kwargs) : option gasprop :=
  let params := if network then network_params else gas_params in
  if forallb (fun p => existsb (String.eqb (fst p)) params) k
  then Some (mkGasprop (num k "redshift"%string 0) (num k "hubble"%string 0.71) (num k "fbar"%string 0.17) (unit_arg k)
               (flag k "sf_neutral"%string true))
  else None.

(** What the methods of the object read, as in NeutralModel (gas_properties.py:46-55, 62, 110, 138-140).  None is the ValueError
    for a negative redshift. *)
Definition gas_of (g : gasprop) : option gas :=
  match uvb_of (g_red g) (g_fbar g) with
  | None => None
  | Some b => Some (Gas b (g_sf g) (get_rho_thresh (g_units g) (g_hubble g)) (density_conv (g_units g) (g_hubble g) (g_red g)))
  end.
