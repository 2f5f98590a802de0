(** Specification vocabulary for the plots of the rate network, on top of the balances of RatesSpec and IoniseSpec. *)
From Coq Require Import Reals List.
From Verif Require Import RatesModel RatesSpec IoniseSpec.
Import ListNotations.
Local Open Scope R_scope.

(** The same network with collisional ionisation switched on or off. *)
Definition colliding (n : network) (b : bool) : network :=
  Network (recomb n) (lg_gH0 n) (lg_gHe0 n) (lg_gHep n) (photo_factor n) b (selfshield n) (gray n) (f_bar n) (converge n).

(** Hydrogen in balance with [ne] electrons per cubic centimetre at temperature [t] under the unshielded background. *)
Definition hydrogen_at (n : network) (ne t neutral ionised : R) : Prop :=
  hydrogen_balance ne (alphaHp (recomb n) t) ((if collisional n then 1 else 0) * GammaeH0 (recomb n) t)
    (Rpower 10 (lg_gH0 n) * photo_factor n) neutral ionised.
Definition helium_at (n : network) (ne t he0 he1 he2 : R) : Prop :=
  let coll := if collisional n then 1 else 0 in
  helium_balance ne (alphaHep (recomb n) t + alphad (recomb n) t) (alphaHepp (recomb n) t) (coll * GammaeHe0 (recomb n) t)
    (coll * GammaeHep (recomb n) t) (Rpower 10 (lg_gHe0 n) * photo_factor n) (Rpower 10 (lg_gHep n) * photo_factor n) he0 he1 he2.

(** [ne] electrons per cubic centimetre and temperature [t] of unshielded gas of density [d] and energy [u], helium 0.24 of the mass:
    the temperature goes with the energy, the electrons are within [tol] per atom of those freed at that temperature. *)
Definition settled (n : network) (tol d u ne t : R) : Prop :=
  0 < t /\ 0 <= ne <= (1 + 2 * (0.24 / (4 * 0.76))) * (0.76 * d) /\ thermal u 0.24 (ne / (0.76 * d)) t /\
  (1e-40 < ne / (0.76 * d) -> forall a b he0 he1 he2, hydrogen_at n ne t a b -> helium_at n ne t he0 he1 he2 ->
     Rabs (b + 0.24 / (4 * 0.76) * (he1 + 2 * he2) - ne / (0.76 * d)) < tol).

(** The axes of the plots: a hundred densities from 1e-6 to 1e-2 per cubic centimetre in steps of equal ratio, a hundred energies from
    100 to 700 (km/s)^2 in equal steps; and the density whose temperature is on the vertical axis. *)
Definition axis_density (i : nat) : R := Rpower 10 (-6 + 4 * (INR i / 99)).
Definition axis_energy (j : nat) : R := 100 + 600 * (INR j / 99).
Definition middle_density : R := (axis_density 49 + axis_density 50) / 2.
