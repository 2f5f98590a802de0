(** Specification vocabulary for the constants of a line and the switch turn_off_selfshield. *)
From Coq Require Import Reals.
From Verif Require Import AbsorptionModel DampModel.
Local Open Scope R_scope.

(** The same spectra with the switch set to [off], or with another profile, tail and velocity independent setting. *)
Definition switched (off : bool) (s : spectra) : spectra :=
  mkSpec off (s_kern s) (s_unit s) (s_box s) (s_nbins s) (s_velfac s) (s_tautail s) (s_profile s) (s_sight s) (s_parts s) (s_lines s).
Definition with_profile (P : R -> R -> R) (t : R) (s : spectra) : spectra :=
  mkSpec (s_off s) (s_kern s) (s_unit s) (s_box s) (s_nbins s) (s_velfac s) t P (s_sight s) (s_parts s) (s_lines s).

(** A line without natural broadening. *)
Definition undamped (l : transition) : transition := mkTrans (lambda_X l) 0 (fosc_X l).
Definition without_damping (L : line) : line := mkAbs (tautail L) (sigma_a L) (bfac L) 0 (velfac L) (vbox L).

(** In the velocity coordinate of the particle's centre the pixel from [lo] to [hi] is at least [gap] from every part of a particle that
    reaches [edge] to both sides. *)
Definition apart (lo hi edge gap : R) : Prop := edge + gap <= lo \/ hi <= - edge - gap.
