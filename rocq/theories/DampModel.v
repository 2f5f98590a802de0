(** Model of the constants of an absorption line and of the switch turn_off_selfshield: the constructor of LineAbsorption
    (fake_spectra/absorption.cpp:150-161) and _do_interpolation_work (fake_spectra/spectra.py:666-673), with the part of
    _read_particle_data that computes the density of neutral hydrogen (spectra.py:592-600).  Exact real arithmetic. *)
From Coq Require Import ZArith List Reals.
From Verif Require Import IndexModel AbsorptionModel PipelineModel NeutralModel.
Import ListNotations.
Local Open Scope R_scope.

(** absorption.cpp:21 *)
Definition SIGMA_T : R := 6.652458558e-25.
(** absorption.cpp:24 *)
Definition BOLTZMANN : R := 1.3806504e-16.
(** absorption.h:4 *)
Definition PROTONMASS : R := 1.67262178e-24.

(** absorption.cpp:152-161; atime and the kernel are kept elsewhere in the model. *)
Definition line_absorption (lambda gamma fosc amumass velfac boxsize tautail : R) : AbsorptionModel.line :=
  mkAbs tautail (sqrt (3 * PI * SIGMA_T / 8) * lambda * fosc) (sqrt (2 * BOLTZMANN / (amumass * PROTONMASS)) / 1e5)
        (gamma * lambda / (4 * PI) / 1e5) velfac (boxsize * velfac).

(** The members lambda_X (in Angstrom), gamma_X and fosc_X of a line (line_data.py:81-86). *)
Record transition := mkTrans { lambda_X : R; gamma_X : R; fosc_X : R }.

(** The members of the Spectra object read by _do_interpolation_work; [s_off]: turn_off_selfshield; [s_profile]: the Voigt profile of
    the C++ code; [s_parts] and [s_lines]: the orders in which the threads reach particles and sightlines. *)
Record spectra := mkSpec { s_off : bool; s_kern : kern; s_unit : R; s_box : Z; s_nbins : nat; s_velfac : R; s_tautail : R;
  s_profile : R -> R -> R; s_sight : list sightline; s_parts : list nat; s_lines : list nat }.

(** spectra.py:666-673. *)
Definition do_interpolation_work (s : spectra) (gs : list PipelineModel.gas) (amumass : R) (l : transition) (get_tau : bool)
  : option (list R) :=
  let g := if s_off s then 0 else gamma_X l in
  interpolate (if get_tau then Depth else Column)
    (mkSetup (s_kern s) (s_unit s) (s_box s) (s_nbins s)
       (line_absorption (lambda_X l * 1e-8) g (fosc_X l) amumass (s_velfac s) (s_unit s * IZR (s_box s)) (s_tautail s)) (s_profile s))
    (s_sight s) gs (s_parts s) (s_lines s).

(** spectra.py:592-600 for elem = "H", ion = 1: the densities of hydrogen held in [gs] times the neutral fractions
    (gas_properties.py:117-146), which come from the densities and fractions of the snapshot. *)
Definition neutral_gas (g : NeutralModel.gas) (gs : list PipelineModel.gas) (densities codes : list R) : list PipelineModel.gas :=
  map (fun p => mkGas (g_part (fst p)) (g_vel (fst p)) (g_dens (fst p) * snd p) (g_temp (fst p)))
    (combine gs (get_reproc_HI g densities codes)).

(** _interpolate_single_file for neutral hydrogen, spectra.py:494-548, one segment all of whose particles are near a line. *)
Definition hydrogen (s : spectra) (g : NeutralModel.gas) (gs : list PipelineModel.gas) (densities codes : list R) (l : transition)
    (get_tau : bool) : option (list R) :=
  do_interpolation_work s (neutral_gas g gs densities codes) 1.00794 l get_tau.
