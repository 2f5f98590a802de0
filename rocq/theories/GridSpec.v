(** Specification vocabulary for the interpolated gas properties. *)
From Coq Require Import Reals List.
From Verif Require Import RatesModel.
Local Open Scope R_scope.

(** The logarithm of the energy at which the table is read: the particle's own inside the table, values somewhat inside the
    ends otherwise. *)
Inductive read_at : R -> R -> Prop :=
| read_own x : 2 < x < 21 -> read_at x x
| read_hot x : 21 <= x -> read_at x 20.79
| read_cold x : x <= 2 -> read_at x 2.02.

(** The energy of a particle after a change of the equation of state: temperature scaled by tf and slope changed by gf - 1. *)
Definition energy (tf gf mean d u : R) : R := u * tf * Rpower (d / mean) (gf - 1).

(** The thinnest gas of the table (atoms per cm^3); the densest is the threshold for star formation if star forming gas is
    neutral, and exp 5 otherwise. *)
Definition thinnest (redshift : R) : R := if Rle_dec 1 redshift then exp (-16) else exp (-20).

(** The ionisation equilibrium of the network at density d (atoms per cm^3) and energy u (1e10 erg/g): x electrons per
    hydrogen nucleus, within the physical range, at the temperature t, reproduce x to the tolerance of the network. *)
Definition solution (n : network) (d u x t : R) : Prop :=
  0 <= x <= 1 + 0.24 / (2 * (1 - 0.24)) /\ get_temp x u 0.24 = Some t /\ 0 < t /\
  Rabs (nebynh n (d * (1 - 0.24)) t x 0.24 - x) < converge n.

(** An interpolator: it reproduces the table at the points of the grid. *)
Definition interpolates (eval : list R -> list R -> list (list R) -> R -> R -> R) : Prop :=
  forall xs ys z i j x y col v, NoDup xs -> NoDup ys -> nth_error xs i = Some x -> nth_error ys j = Some y ->
  nth_error z i = Some col -> nth_error col j = Some v -> eval xs ys z x y = v.
