(** Specification of cosmological distances and of fluxes. *)
From Coquelicot Require Import Coquelicot.
From Coq Require Import List Reals.
Import ListNotations.
Local Open Scope R_scope.

(** The density of photons and massless neutrinos of the flat model, for a Hubble constant of 100 h km/s/Mpc. *)
Definition radiation (h : R) : R := 4.165e-5 / h ^ 2.

(** H(s) / H0 of the flat model at redshift [s]. *)
Definition expansion (om h s : R) : R :=
  sqrt (om * (1 + s) ^ 3 + radiation h * (1 + s) ^ 4 + (1 - om - radiation h)).

(** [d] is the comoving distance to redshift [z] in Mpc: the speed of light times the integral of ds / H(s). *)
Definition comoving_distance (h0 om z d : R) : Prop :=
  exists i, is_RInt (fun s => / expansion om (h0 / 100) s) 0 z i /\ d = 299792.458 / h0 * i.

(** [m'] is the apparent magnitude at [dl] Mpc of what has absolute magnitude [m] (ten parsec). *)
Definition apparent_magnitude (m dl m' : R) : Prop := m' = m + 5 * (ln (dl * 1e6 / 10) / ln 10).
