(** Vocabulary for the statements about Voronoi cells on a sightline. *)
From Coq Require Import ZArith List Reals.
From Verif Require Import VoronoiModel.
Import ListNotations.
Local Open Scope R_scope.

(** d is the distance between a and b on a circle of circumference L. *)
Definition circle_distance (L a b d : R) : Prop :=
  (exists k : Z, d = Rabs (a - b + IZR k * L)) /\ (forall k : Z, d <= Rabs (a - b + IZR k * L)).

(** d2 is the squared periodic distance of a cell centre from the point (x, y, z). *)
Definition cell_distance2 (L : R) (c : cell) (x y z d2 : R) : Prop :=
  exists dx dy dz, circle_distance L (c_along c) x dx /\ circle_distance L (c_second c) y dy /\
    circle_distance L (c_third c) z dz /\ d2 = dx * dx + dy * dy + dz * dz.

(** Cell number m is nearest to the point; among equally near cells the first. *)
Definition is_nearest (L : R) (cs : list cell) (x y z : R) (m : nat) : Prop :=
  exists c d, nth_error cs m = Some c /\ cell_distance2 L c x y z d /\
  forall m' c' d', nth_error cs m' = Some c' -> cell_distance2 L c' x y z d' ->
    d <= d' /\ ((m' < m)%nat -> d < d').

(** x lies strictly inside the segment (lo, hi) of the circle of circumference L. *)
Definition covers (L : R) (seg : R * R) (x : R) : Prop :=
  exists k : Z, fst seg < x + IZR k * L < snd seg.

Definition inside_box (L : R) (c : cell) : Prop :=
  0 <= c_along c <= L /\ 0 <= c_second c <= L /\ 0 <= c_third c <= L.
