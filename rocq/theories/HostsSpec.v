(** Specification of histograms of host halos and of mean temperatures. *)
From Coq Require Import ZArith List Reals.
Import ListNotations.
Local Open Scope R_scope.

(** Logarithm to base ten. *)
Definition lg (x : R) : R := ln x / ln 10.

(** The number belongs to bin [i] of the [n] bins with edges [e 0], ..., [e n]; the last bin contains its upper edge. *)
Definition within (e : nat -> R) (n i : nat) (x : R) : Prop :=
  e i <= x /\ (x < e (S i) \/ (S i = n /\ x = e n)).

(** Equally spaced edges. *)
Definition spaced (a d : R) (i : nat) : R := a + INR i * d.

(** The sightlines which have a host, the slowest and the fastest host. *)
Definition hosted (halo : Z) : Prop := halo <> (-1)%Z.
Definition slowest (vel : Z -> R) (halos : list Z) (lo : R) : Prop :=
  (exists h, In h halos /\ hosted h /\ vel h = lo) /\ forall h, In h halos -> hosted h -> lo <= vel h.
Definition fastest (vel : Z -> R) (halos : list Z) (hi : R) : Prop :=
  (exists h, In h halos /\ hosted h /\ vel h = hi) /\ forall h, In h halos -> hosted h -> vel h <= hi.

(** The smallest and the largest value of the absorbers. *)
Definition lowest (absorbers : list (R * Z)) (lo : R) : Prop :=
  (exists h, In (lo, h) absorbers) /\ forall x h, In (x, h) absorbers -> lo <= x.
Definition highest (absorbers : list (R * Z)) (hi : R) : Prop :=
  (exists h, In (hi, h) absorbers) /\ forall x h, In (x, h) absorbers -> x <= hi.

(** The scale on which the bins are equally spaced, and back. *)
Definition scale (log : bool) (x : R) : R := if log then lg x else x.
Definition unscale (log : bool) (x : R) : R := if log then Rpower 10 x else x.

(** The virial velocity of the host lies in the range. *)
Definition between (vel : Z -> R) (r : R * R) (halo : Z) : Prop := fst r < vel halo < snd r.

(** No velocity lies in two of the ranges. *)
Definition disjoint (ranges : list (R * R)) : Prop :=
  forall i j v, (i < j < length ranges)%nat ->
    fst (nth i ranges (0, 0)) < v < snd (nth i ranges (0, 0)) -> ~ fst (nth j ranges (0, 0)) < v < snd (nth j ranges (0, 0)).

Definition total (l : list R) : R := fold_right Rplus 0 l.

(** A sightline is a list of pixels, each with a temperature and a density; the mean is weighted by the density. *)
Inductive picked : list (R * R) -> list (R * R) -> Prop :=
| picked_nil : picked [] []
| picked_yes : forall t d l l', / 10 ^ 6 <= d -> picked l l' -> picked ((t, d) :: l) ((t, d) :: l')
| picked_no : forall t d l l', d < / 10 ^ 6 -> picked l l' -> picked ((t, d) :: l) l'.
Definition weight (pixels : list (R * R)) : R := total (map snd pixels).
Definition warmth (pixels : list (R * R)) : R := total (map (fun p => fst p * snd p) pixels) / weight pixels.

(** The points of a list of sightlines: those with a dense pixel and a mean below 1e5. *)
Inductive drawn : list (list (R * R)) -> list (R * R) -> Prop :=
| drawn_nil : drawn [] []
| drawn_empty : forall s l pts, picked s [] -> drawn l pts -> drawn (s :: l) pts
| drawn_hot : forall s p l pts, picked s p -> p <> [] -> 10 ^ 5 <= warmth p -> drawn l pts -> drawn (s :: l) pts
| drawn_point : forall s p l pts, picked s p -> p <> [] -> warmth p < 10 ^ 5 -> drawn l pts ->
    drawn (s :: l) ((weight p, warmth p) :: pts).
