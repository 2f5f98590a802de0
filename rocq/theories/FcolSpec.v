(** Vocabulary for the column density of a particle in floating point: the uniform sphere on real numbers, independent of the code. *)
From Coq Require Import ZArith Reals List.
Local Open Scope R_scope.

(** Half the length a line at squared distance [dr2] from the centre spends in the sphere of radius [h]. *)
Definition half_chord (h dr2 : R) : R := sqrt (Rmax 0 (h * h - dr2)).

(** The column density along that line, of a uniform sphere of mass [dens h^3] spread over its volume: [dens] is the density of
    a cube of side [h]. *)
Definition column (dens h dr2 : R) : R := dens * (3 / (4 * PI)) * (2 * half_chord h dr2).

Fixpoint total (l : list R) : R := match l with nil => 0 | cons x l' => x + total l' end.

(** Some image of pixel [j] of [n], of the periodic line of length [L], comes within [tol] of the interval from [a] to [b]. *)
Definition pixel_meets (L : R) (n : nat) (tol a b : R) (j : nat) : Prop :=
  exists k : Z, let lo := L / INR n * (INR j + IZR k * INR n) in
    lo <= b + tol /\ a - tol <= lo + L / INR n.

(** Sizes for which the bounds are stated: the box and the conversion to velocities are far from the limits of the exponents. *)
Definition sizes (L velfac : R) (n : nat) : Prop :=
  / 2 ^ 40 <= L <= 2 ^ 40 /\ / 2 ^ 40 <= velfac <= 2 ^ 40 /\ (1 <= n <= 2 ^ 20)%nat.
