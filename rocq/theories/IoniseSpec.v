(** Specification vocabulary for the response of the ionisation balance: a state of the gas that is in balance with the radiation,
    and the temperature that goes with an internal energy.  Written with the gains and losses of RatesSpec, without the closed
    formulas of the code. *)
From Coq Require Import Reals.
From Verif Require Import RatesModel RatesSpec.
Local Open Scope R_scope.

(** Gas of [nh] hydrogen atoms per cubic centimetre at temperature [t], with [x] electrons per hydrogen atom and the fraction
    [neutral] of hydrogen neutral, in balance with the network's rates when the fraction [shield] of the radiation reaches it. *)
Definition balanced (n : network) (shield nh helium t x neutral : R) : Prop :=
  let coll := if collisional n then 1 else 0 in
  let photo lg := Rpower 10 lg * photo_factor n * shield in
  let r := recomb n in
  exists ionised he0 he1 he2,
    hydrogen_balance (x * nh) (alphaHp r t) (coll * GammaeH0 r t) (photo (lg_gH0 n)) neutral ionised /\
    helium_balance (x * nh) (alphaHep r t + alphad r t) (alphaHepp r t) (coll * GammaeHe0 r t) (coll * GammaeHep r t)
      (photo (lg_gHe0 n)) (photo (lg_gHep n)) he0 he1 he2 /\
    x = ionised + helium / (4 * (1 - helium)) * (he1 + 2 * he2).

(** The temperature of monatomic gas with the internal energy [u] (km/s squared) per mass. *)
Definition thermal (u helium x t : R) : Prop :=
  3 / 2 * 1.38066e-16 * t * particles_per_mass x helium = u * 1e10 * 1.67262178e-24.

(** The same network under radiation scaled by another factor. *)
Definition lit (n : network) (f : R) : network :=
  Network (recomb n) (lg_gH0 n) (lg_gHe0 n) (lg_gHep n) f (collisional n) (selfshield n) (gray n) (f_bar n) (converge n).

(** Temperatures up to which the tables respond smoothly: the table of Verner switches its fit of He+ at 600000 K, the
    collisional fits of Voronov are used up to a million K. *)
Definition within (r : rates) (t : R) : Prop :=
  r = cen92 \/ (r = badnell /\ t <= 1e6) \/ (r = verner96 /\ t < 6e5).
