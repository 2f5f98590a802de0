(** Specification of absorbers in a periodic spectrum and of the halo they belong to. *)
From Coq Require Import ZArith List Reals.
From Verif Require Import HaloModel.
Import ListNotations.
Local Open Scope R_scope.

(** ** Periodic spectra *)

(** Pixel [i] of a periodic spectrum, for any integer [i]. *)
Definition pix (den : list Z) (i : Z) : Z := nth (Z.to_nat (i mod Z.of_nat (length den))) den 0%Z.

(** [p] is the first pixel at which the spectrum is largest. *)
Definition peak (den : list Z) (p : nat) : Prop :=
  (p < length den)%nat /\
  (forall i, (i < length den)%nat -> (nth i den 0 <= nth p den 0)%Z) /\
  (forall i, (i < p)%nat -> (nth i den 0 < nth p den 0)%Z).

(** The column density a pixel of an absorber exceeds: the threshold if the peak [m] exceeds it, else a fraction of the peak. *)
Definition is_level (thresh relthresh : R) (m : Z) (c : R) : Prop :=
  (thresh < IZR m /\ c = thresh) \/ (IZR m <= thresh /\ c = relthresh * IZR m).

(** The pixels [a], ..., [b - 1] of one period starting at [lo] are above [c], and cannot be extended within that period. *)
Definition absorber (den : list Z) (lo : Z) (c : R) (a b : Z) : Prop :=
  (lo <= a < b)%Z /\ (b <= lo + Z.of_nat (length den))%Z /\
  (forall i, (a <= i < b)%Z -> c < IZR (pix den i)) /\
  (a = lo \/ IZR (pix den (a - 1)) <= c) /\
  (b = (lo + Z.of_nat (length den))%Z \/ IZR (pix den b) <= c).

(** Sum of [f] over a, ..., b - 1. *)
Definition sum_range (f : Z -> R) (a b : Z) : R :=
  fold_right Rplus 0 (map (fun k => f (a + Z.of_nat k)%Z) (seq 0 (Z.to_nat (b - a)))).

(** Mean pixel of an absorber, weighted by column density. *)
Definition centroid (den : list Z) (a b : Z) : R :=
  sum_range (fun i => IZR (pix den i) * IZR i) a b / sum_range (fun i => IZR (pix den i)) a b.

(** [z] is the position in the box of pixel [x] of a periodic spectrum of [n] pixels. *)
Definition placed (box : R) (n : nat) (x z : R) : Prop :=
  0 <= z < box /\ exists k : Z, z = (x + IZR k * INR n) * box / INR n.

(** Two positions differ by [d], periodically. *)
Definition moved_by (box d z z' : R) : Prop := exists k : Z, z' = z + d + IZR k * box.

(** ** Spheres *)

(** Squared distance. *)
Definition sqdist (a b : R * R * R) : R :=
  (fst (fst a) - fst (fst b)) ^ 2 + (snd (fst a) - snd (fst b)) ^ 2 + (snd a - snd b) ^ 2.

(** The point at coordinate [z] along a sightline through [c] in direction [axis] (1, 2 or 3). *)
Definition on_line (c : R * R * R) (axis : Z) (z : R) : R * R * R :=
  if (axis =? 1)%Z then (z, snd (fst c), snd c) else if (axis =? 2)%Z then (fst (fst c), z, snd c) else (fst c, z).

(** Sphere [i] of a catalogue contains the point. *)
Definition contains (radii : list R) (cofm : list (R * R * R)) (p : R * R * R) (i : nat) : Prop :=
  exists c r, nth_error cofm i = Some c /\ nth_error radii i = Some r /\ sqdist c p < r ^ 2.

(** [i] is the first sphere containing the point. *)
Definition host (radii : list R) (cofm : list (R * R * R)) (p : R * R * R) (i : nat) : Prop :=
  contains radii cofm p i /\ forall j, (j < i)%nat -> ~ contains radii cofm p j.

(** The hosts of a list of points with their distances, points in no sphere being skipped. *)
Inductive hosts (radii : list R) (cofm : list (R * R * R)) : list (R * R * R) -> list (nat * R) -> Prop :=
| hosts_nil : hosts radii cofm [] []
| hosts_in : forall p ps i c d out, host radii cofm p i -> nth_error cofm i = Some c -> 0 <= d -> d * d = sqdist c p ->
    hosts radii cofm ps out -> hosts radii cofm (p :: ps) ((i, d) :: out)
| hosts_out : forall p ps out, (forall i, ~ contains radii cofm p i) -> hosts radii cofm ps out ->
    hosts radii cofm (p :: ps) out.

(** [l'] lists the distinct elements of [l] once each. *)
Definition enumerates (l l' : list nat) : Prop := NoDup l' /\ forall x, In x l' <-> In x l.

(** ** Depth of the potential *)

(** Mass over radius of a halo; halos of radius zero count as having radius one. *)
Definition depth (m r d : R) : Prop := (r <> 0 /\ d * r = m) \/ (r = 0 /\ d = m).

(** [v] is the speed of a circular orbit at distance [r] of a mass [m]. *)
Definition circular (grav m r v : R) : Prop := 0 <= v /\ v * v * r = grav * m.

(** Halo [h] is the host of one of the points, or the parent of a subhalo which is. *)
Definition candidate (radii : list R) (cofm : list (R * R * R)) (sub_radii : list R) (sub_cofm : list (R * R * R))
  (parent : list nat) (pts : list (R * R * R)) (h : nat) : Prop :=
  (exists p, In p pts /\ host radii cofm p h) \/
  (exists p s, In p pts /\ host sub_radii sub_cofm p s /\ nth_error parent s = Some h).

(** ** Reasonable inputs *)

(** Units and cosmology are positive. *)
Definition good_units (u : units) : Prop :=
  0 < u_mass u /\ 0 < u_length u /\ 0 < u_grav u /\ 0 < u_hubble u /\ -1 < u_red u.

(** A catalogue as read: columns of equal length, parents that exist, an integer index column, no negative masses or radii. *)
Definition good_cat (c : catalogue) : Prop :=
  length (sub_mass c) = length (sub_cofm c) /\ length (sub_radii c) = length (sub_cofm c) /\
  length (sub_sub_radii c) = length (sub_sub_cofm c) /\ length (sub_sub_index c) = length (sub_sub_cofm c) /\
  (forall i, In i (sub_sub_index c) -> (i < length (sub_cofm c))%nat) /\ index_is_int c = true /\
  (forall m, In m (sub_mass c) -> 0 <= m) /\ (forall r, In r (sub_radii c) -> 0 <= r).

(** Sightlines along the axes, one spectrum of the right length each, no negative column density. *)
Definition good_state (s : state) : Prop :=
  0 < st_box s /\ (0 < st_nbins s)%nat /\ st_den s <> [] /\ length (st_lines s) = length (st_den s) /\
  (forall c ax, In (c, ax) (st_lines s) -> (1 <= ax <= 3)%Z) /\
  (forall row, In row (st_den s) -> length row = st_nbins s /\ forall x, In x row -> (0 <= x)%Z) /\
  good_cat (st_cat s).
