(** Vocabulary for the statements about plots. *)
From Coq Require Import ZArith List Reals.
Import ListNotations.
Local Open Scope R_scope.

(** The first of the largest elements. *)
Definition first_largest (l : list R) (p : nat) : Prop :=
  (p < length l)%nat /\ (forall j, (j < length l)%nat -> nth j l 0 <= nth p l 0) /\ (forall j, (j < p)%nat -> nth j l 0 < nth p l 0).

(** The pixel [j] of a periodic spectrum of [n] pixels is [d] pixels to the right of pixel [p], displaced by [s]. *)
Definition displaced (n j p s d : Z) : Prop := exists m, (d = j - p + s + m * n)%Z.

(** One component of the velocity of one pixel. *)
Definition speed (v : list (list (list R))) (num i ax : nat) : R := nth ax (nth i (nth num v []) []) 0.

(** The pixels above a threshold. *)
Definition bright (thresh : R) (den : list R) : nat := length (filter (fun d => if Rlt_dec thresh d then true else false) den).

(** Velocities of sightlines with as many pixels as densities, in three directions. *)
Definition velocity_of (v : list (list (list R))) (num : nat) (den : list R) : Prop :=
  (num < length v)%nat /\ length (nth num v []) = length den /\ forall p, In p (nth num v []) -> length p = 3%nat.
