(** Specification of plotted distributions. *)
From Coq Require Import ZArith List Reals.
From Verif Require Import HostsSpec.
From Verif Require MetalModel.
Import ListNotations.
Local Open Scope R_scope.

(** The range of an axis: from the smallest to the largest number; widened if all are the same, and from 0 to 1 if there are none. *)
Inductive covers : list R -> R -> R -> Prop :=
| covers_none : covers [] 0 1
| covers_one : forall l x, l <> [] -> (forall y, In y l -> y = x) -> covers l (x - / 2) (x + / 2)
| covers_range : forall l lo hi, In lo l -> In hi l -> lo < hi -> (forall y, In y l -> lo <= y <= hi) -> covers l lo hi.

(** The sightlines of a plot against the mass of the host, with the position and value of each point. *)
Inductive hosted_points (x : Z -> R) : list (Z * MetalModel.quotient) -> list (R * R) -> Prop :=
| hosted_nil : hosted_points x [] []
| hosted_point : forall h q l pts, (0 < h)%Z -> / 10 ^ 4 < q -> hosted_points x l pts -> hosted_points x ((h, MetalModel.Num q) :: l) ((x h, q) :: pts)
| hosted_poor : forall h q l pts, q <= / 10 ^ 4 -> hosted_points x l pts -> hosted_points x ((h, MetalModel.Num q) :: l) pts
| hosted_nan : forall h l pts, hosted_points x l pts -> hosted_points x ((h, MetalModel.NotFinite) :: l) pts
| hosted_first : forall h q l pts, (h <= 0)%Z -> hosted_points x l pts -> hosted_points x ((h, q) :: l) pts.

(** The logarithm of a quotient lies in bin [i]. *)
Definition lg_within (e : nat -> R) (n i : nat) (q : MetalModel.quotient) : Prop :=
  exists x, q = MetalModel.Num x /\ 0 < x /\ within e n i (lg x).

(** The logarithm of the ratio of two quotients lies in bin [i]. *)
Definition ratio_within (e : nat -> R) (n i : nat) (p : MetalModel.quotient * MetalModel.quotient) : Prop :=
  exists m x, p = (MetalModel.Num m, MetalModel.Num x) /\ 0 < m /\ 0 < x /\ within e n i (lg (x / m)).

(** Sum of the elements of [l] with the property [P]. *)
Inductive sum_of (P : R -> Prop) : list R -> R -> Prop :=
| sum_nil : sum_of P [] 0
| sum_yes : forall x l s, P x -> sum_of P l s -> sum_of P (x :: l) (x + s)
| sum_no : forall x l s, ~ P x -> sum_of P l s -> sum_of P (x :: l) s.
