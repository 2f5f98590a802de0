(** Specification vocabulary for the rate network: ionisation balance written
    as gains equal to losses, without the closed formulas of the code. *)
From Coq Require Import Reals List.
Import ListNotations.
Local Open Scope R_scope.

(** Hydrogen in ionisation equilibrium with electrons of density [ne]:
    recombinations balance photoionisations (rate [photo]) and collisional
    ionisations (coefficient [coll]). *)
Definition hydrogen_balance (ne alpha coll photo neutral ionised : R) : Prop :=
  neutral + ionised = 1 /\
  neutral * (photo + coll * ne) = ionised * alpha * ne.

(** Helium in equilibrium: no net flow between neutral and singly ionised,
    nor between singly and doubly ionised helium. *)
Definition helium_balance (ne rec1 rec2 coll0 coll1 photo0 photo1 he0 he1 he2 : R)
  : Prop :=
  he0 + he1 + he2 = 1 /\
  he0 * (photo0 + coll0 * ne) = he1 * rec1 * ne /\
  he1 * (photo1 + coll1 * ne) = he2 * rec2 * ne.

(** A fraction. *)
Definition fraction (f : R) : Prop := 0 <= f <= 1.

(** The number of particles (nuclei and electrons) per proton mass of gas with
    hydrogen mass fraction [1 - helium] and [x] electrons per hydrogen atom. *)
Definition particles_per_mass (x helium : R) : R :=
  (1 - helium) + helium / 4 + x * (1 - helium).
