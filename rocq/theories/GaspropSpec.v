(** Specification of densities in a snapshot. *)
From Coq Require Import Reals.
From Verif Require Import QuantModel.
Local Open Scope R_scope.

(** A system of units that makes sense. *)
Definition good_units (u : units) : Prop := 0 < u_length u /\ 0 < u_mass u /\ 0 < u_vel u.

(** Gas of physical density [rho] (g / cm^3) is stored as [d] at redshift [z]: mass in units of the mass unit over h per cube of
    the comoving length unit over h. *)
Definition stored (u : units) (h z d rho : R) : Prop := rho * (u_length u / h / (1 + z)) ^ 3 = d * (u_mass u / h).
