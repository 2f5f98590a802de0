(** Specification of sightlines through halos. *)
From Coq Require Import ZArith List Reals.
From Verif Require Import HalolineModel.
Import ListNotations.
Local Open Scope R_scope.

(** The squared distance of two points, and that of a point from the line through another along the first axis. *)
Definition distance2 (a b : point) : R :=
  match a, b with (x, y, z), (x', y', z') => (x - x') ^ 2 + (y - y') ^ 2 + (z - z') ^ 2 end.
Definition impact2 (a b : point) : R :=
  match a, b with (_, y, z), (_, y', z') => (y - y') ^ 2 + (z - z') ^ 2 end.

(** [b] is within the cube of half side [r] about [a]. *)
Definition in_cube (r : R) (a b : point) : Prop :=
  match a, b with (x, y, z), (x', y', z') => Rabs (x' - x) < r /\ Rabs (y' - y) < r /\ Rabs (z' - z) < r end.

(** A halo of the catalogue (masses in units of 1e10 solar masses) that is to be used: its mass is between the limits, and no
    heavier halo of the catalogue is within its radius in every coordinate. *)
Definition usable (cat : list halo) (lo hi : R) (h : halo) : Prop :=
  In h cat /\ lo < h_mass h * 1e10 < hi /\
  forall g, In g cat -> h_mass h < h_mass g -> ~ in_cube (h_rad h) (h_pos h) (h_pos g).

(** A number drawn at random. *)
Definition drawn (u : R) : Prop := 0 <= u < 1.

(** A point of the box. *)
Definition in_box (box : R) (p : point) : Prop :=
  match p with (x, y, z) => 0 <= x < box /\ 0 <= y < box /\ 0 <= z < box end.
