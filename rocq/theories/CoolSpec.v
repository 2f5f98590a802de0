(** Vocabulary for the statements about cooling. *)
From Coq Require Import List Reals.
From Verif Require Import AbsorptionSpec.
Import ListNotations.
Local Open Scope R_scope.

(** Energy lost per volume and time in encounters of electrons (ne per volume) with several kinds of ions: a pair
    of coefficient and number density for each. *)
Definition encounters (ne : R) (l : list (R * R)) : R := ne * rsum (map (fun kn => fst kn * snd kn) l).

(** Energy lost per pair of electron and ion in excitation from the ground state: the fits of Black (1981), with the factor of Cen (1992) for
    temperatures above [tc]; [e] is the energy of the transition as a temperature. *)
Definition excitation (k p e tc t : R) : R := k * Rpower t p * exp (- e / t) / (1 + sqrt (t / tc)).
