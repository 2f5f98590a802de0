(** Vocabulary for the statements about the mean flux rescaling. *)
From Coq Require Import List Reals Permutation.
From Verif Require Import AbsorptionSpec.
Import ListNotations.
Local Open Scope R_scope.

(** The pixels at or below the threshold. *)
Definition unmasked (thresh : R) (tau : list R) : list R :=
  filter (fun t => if Rle_dec t thresh then true else false) tau.

(** The mean of exp(-s tau) over a list of pixels. *)
Definition mean_transmission (s : R) (tau : list R) : R :=
  rsum (map (fun t => exp (- (s * t))) tau) / INR (length tau).

(** The pixels divided between threads, anew in every iteration. *)
Definition divided (tau : list R) (parts : nat -> list (list R)) : Prop :=
  forall k, Permutation (concat (parts k)) tau.

(** Optical depths on which the iteration is well defined. *)
Definition absorbing (tau : list R) : Prop :=
  Forall (fun t => 0 <= t) tau /\ Exists (fun t => 0 < t) tau.
