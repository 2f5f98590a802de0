(** Vocabulary for the tables of rates and cooling coefficients: the published
    fitting formulas and what it means to depend continuously on temperature. *)
From Coq Require Import Reals.
Local Open Scope R_scope.

(** Cen 1992: powers of the temperature in units of 1, 1e3 and 1e6 K. *)
Definition cen_hydrogenic (c T : R) : R :=
  c * Rpower T (-1/2) * Rpower (T / 10 ^ 3) (-1/5) * / (1 + Rpower (T / 10 ^ 6) (7/10)).
(** Dielectronic recombination: amplitude and the two activation temperatures. *)
Definition dielectronic (c T0 T1 T : R) : R :=
  c * Rpower T (-3/2) * exp (- (T0 / T)) * (1 + 3/10 * exp (- (T1 / T))).
(** Collisional ionisation: amplitude and threshold temperature. *)
Definition cen_ionisation (c T0 T : R) : R :=
  c * Rpower T (1/2) * exp (- (T0 / T)) * / (1 + Rpower (T / 10 ^ 5) (1/2)).

(** Verner and Ferland 1996, equation 4. *)
Definition verner_ferland (a b T0 T1 T : R) : R :=
  a * / (Rpower (T / T0) (1/2) * Rpower (1 + Rpower (T / T0) (1/2)) (1 - b)
         * Rpower (1 + Rpower (T / T1) (1/2)) (1 + b)).

(** Voronov 1997, equation 1: [U] is the threshold in eV over the thermal energy. *)
Definition voronov (dE P A X K T : R) : R :=
  let U := dE / (T * 8.61734e-5) in
  A * (1 + P * Rpower U (1/2)) / (X + U) * Rpower U K * exp (- U).

(** The number a fraction of the way from [lo] to [hi] at [T]. *)
Definition blend (lo hi : R) (f g : R -> R) (T : R) : R :=
  f T * ((hi - T) / (hi - lo)) + g T * ((T - lo) / (hi - lo)).

Definition continuous_at (f : R -> R) (x : R) : Prop :=
  forall eps, 0 < eps -> exists del, 0 < del /\
    forall y, Rabs (y - x) < del -> Rabs (f y - f x) < eps.

(** The value at [x] lies at least [m] below all values nearby. *)
Definition isolated_dip (f : R -> R) (x m : R) : Prop :=
  exists del, 0 < del /\ forall y, y <> x -> Rabs (y - x) < del -> f x + m <= f y.

(** All values nearby on the right of [x] lie at least [m] below that at [x]. *)
Definition drops_after (f : R -> R) (x m : R) : Prop :=
  exists del, 0 < del /\ forall y, x < y < x + del -> f y <= f x - m.

(** All values nearby on the left of [x] lie at least [m] above that at [x]. *)
Definition drops_at (f : R -> R) (x m : R) : Prop :=
  exists del, 0 < del /\ forall y, x - del < y < x -> f x + m <= f y.

(** Constants of the cooling coefficients: one eV in erg, and the energy per kelvin. *)
Definition eV : R := 1.60218e-12.
Definition k_B : R := 1.38064852e-16.

(** Excitation: amplitude, power of the temperature, threshold temperature, and the
    temperature of Cen's suppression of hot gas. *)
Definition excitation (c p T0 Tc T : R) : R :=
  c * Rpower T p * exp (- (T0 / T)) / (1 + sqrt (T / Tc)).

(** Scholz and Walters 1991: the exponent is a polynomial in the logarithm of
    the temperature and a Boltzmann factor at three quarters of a Rydberg. *)
Definition scholz_walters (a0 a1 a2 a3 a4 a5 T : R) : R :=
  let y := ln T in
  1e-20 * exp (a0 - a1 * y + a2 * y ^ 2 - a3 * y ^ 3 + a4 * y ^ 4 - a5 * y ^ 5
               - 3/4 * 2.1798741e-11 / (k_B * T)).

(** Spitzer 1978: bremsstrahlung of an ion of charge [Z] with Gaunt factor [g]. *)
Definition bremsstrahlung (Z g T : R) : R := 1.426e-27 * Z ^ 2 * g * sqrt T.
