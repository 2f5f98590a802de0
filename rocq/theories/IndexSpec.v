(** Specification vocabulary for the particle search, independent of the search code. *)
From Coq Require Import ZArith List.
From Verif Require Import IndexModel.
Open Scope Z_scope.

(** [d] is the distance between coordinates [a] and [b] on a circle of circumference [L]:
    the least distance over all periodic images. *)
Definition periodic_distance (L a b d : Z) : Prop :=
  (exists k, d = Z.abs (a - b + k * L)) /\ (forall k, d <= Z.abs (a - b + k * L)).

(** [d2] is the squared periodic distance from particle [p] to sightline [l], measured in
    the two directions transverse to the sightline (axis 1, 2, 3 is x, y, z). *)
Definition transverse_distance2 (L : Z) (p : particle) (l : sightline) (d2 : Z) : Prop :=
  exists du dv, d2 = du * du + dv * dv /\
    ((l_axis l = 1 /\ periodic_distance L (p_y p) (l_y l) du
                   /\ periodic_distance L (p_z p) (l_z l) dv) \/
     (l_axis l = 2 /\ periodic_distance L (p_x p) (l_x l) du
                   /\ periodic_distance L (p_z p) (l_z l) dv) \/
     (l_axis l = 3 /\ periodic_distance L (p_x p) (l_x l) du
                   /\ periodic_distance L (p_y p) (l_y l) dv)).

Definition inside (L c : Z) : Prop := 0 <= c <= L.

Definition good_line (L : Z) (l : sightline) : Prop :=
  (l_axis l = 1 \/ l_axis l = 2 \/ l_axis l = 3) /\
  inside L (l_x l) /\ inside L (l_y l) /\ inside L (l_z l).

Definition good_particle (L : Z) (p : particle) : Prop :=
  inside L (p_x p) /\ inside L (p_y p) /\ inside L (p_z p).

(** Particle [p] is strictly within its smoothing length of some sightline. *)
Definition near_some_line (L : Z) (ls : list sightline) (p : particle) : Prop :=
  exists l d2, In l ls /\ transverse_distance2 L p l d2 /\ d2 < p_h p * p_h p.
