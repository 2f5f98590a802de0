(** Vocabulary for the particle search in floating point: exact distances on real numbers, independent of the search code. *)
From Coq Require Import ZArith Reals List.
From Verif Require Import FsearchModel.
Local Open Scope R_scope.

(** [d] is the distance between [a] and [b] on a circle of circumference [L]: the least over all periodic images. *)
Definition periodic_distance (L a b d : R) : Prop :=
  (exists k : Z, d = Rabs (a - b + IZR k * L)) /\ (forall k : Z, d <= Rabs (a - b + IZR k * L)).

(** [d] is the periodic distance from particle [p] to sightline [l], in the two directions transverse to the sightline. *)
Definition transverse_distance (L : R) (p : particle) (l : sightline) (d : R) : Prop :=
  exists du dv, d = sqrt (du * du + dv * dv) /\
    ((l_axis l = 1%Z /\ periodic_distance L (p_y p) (l_y l) du /\ periodic_distance L (p_z p) (l_z l) dv) \/
     (l_axis l = 2%Z /\ periodic_distance L (p_x p) (l_x l) du /\ periodic_distance L (p_z p) (l_z l) dv) \/
     (l_axis l = 3%Z /\ periodic_distance L (p_x p) (l_x l) du /\ periodic_distance L (p_y p) (l_y l) dv)).

Definition inside (L c : R) : Prop := 0 <= c <= L.

Definition good_line (L : R) (l : sightline) : Prop :=
  (l_axis l = 1%Z \/ l_axis l = 2%Z \/ l_axis l = 3%Z) /\ inside L (l_x l) /\ inside L (l_y l) /\ inside L (l_z l).

Definition good_particle (L : R) (p : particle) : Prop := inside L (p_x p) /\ inside L (p_y p) /\ inside L (p_z p).

(** Clearly inside the smoothing length: by more than a part in 2^21 of the box. *)
Definition clearly_near (L : R) (p : particle) (l : sightline) : Prop :=
  exists d, transverse_distance L p l d /\ d <= p_h p - L / 2 ^ 21.

(** Not clearly outside: by at most a part in 2^23 of the box and of the smoothing length. *)
Definition about_near (L : R) (p : particle) (l : sightline) : Prop :=
  exists d, transverse_distance L p l d /\ d <= p_h p + (p_h p + L) / 2 ^ 23.
