(** Vocabulary for the statements about column density statistics. *)
From Coq Require Import List Reals.
From Verif Require Import AbsorptionSpec.
Import ListNotations.
Local Open Scope R_scope.

(** Edge i of the logarithmic bins. *)
Definition bin_edge (minN dlogN : R) (i : nat) : R := Rpower 10 (minN + INR i * dlogN).

(** x falls into bin i of n bins, of which the last contains its upper edge. *)
Definition falls_into (minN dlogN : R) (n i : nat) (x : R) : Prop :=
  bin_edge minN dlogN i <= x /\
  (x < bin_edge minN dlogN (S i) \/ (S i = n /\ x = bin_edge minN dlogN n)).

(** A row is cut into groups of c pixels; fewer than c pixels are left. *)
Definition cut_into (c : nat) (row : list R) (groups : list (list R)) : Prop :=
  exists rest, row = concat groups ++ rest /\ Forall (fun g => length g = c) groups /\ (length rest < c)%nat.

(** The absorbers counted: whole sightlines, or groups of c pixels, c being the closeness in pixels to the
    nearest integer, but at least 1. *)
Definition absorbers_of (line : bool) (pixels_close : R) (rho : list (list R)) (a : list R) : Prop :=
  if line then a = map rsum rho
  else exists c groups, (1 <= c)%nat /\ (c = 1%nat /\ pixels_close <= 3 / 2 \/ Rabs (INR c - pixels_close) <= / 2) /\
         Forall2 (cut_into c) rho groups /\ a = map rsum (concat groups).
