(** Vocabulary for the statements about the cut-off of the line widths. *)
From Coq Require Import List Reals Permutation.
From Verif Require Import AbsorptionSpec.
Import ListNotations.
Local Open Scope R_scope.

Definition average (l : list R) : R := rsum l / INR (length l).
(** Standard deviation. *)
Definition spread (l : list R) : R := sqrt (average (map (fun x => (x - average l) ^ 2) l)).
(** Mean absolute deviation from the mean. *)
Definition scatter (l : list R) : R := average (map (fun x => Rabs (average l - x)) l).

(** Systems with 8 < b < 100 and 12.5 < log N < 14.5. *)
Definition usable (s : R * R) : Prop :=
  8 < snd s < 100 /\ Rpower 10 12.5 < fst s < Rpower 10 14.5.

(** A point is a system by its decimal logarithms: fst of column density, snd of width. *)
Definition logs (s p : R * R) : Prop := fst s = Rpower 10 (fst p) /\ snd s = Rpower 10 (snd p).

(** Quarter i of a decade, counted from 10^12.5. *)
Definition quarter (i : nat) (p : R * R) : Prop := 12.5 + INR i / 4 <= fst p < 12.5 + INR (S i) / 4.

Definition narrow (p : R * R) : Prop := Rpower 10 (snd p) < 40.

(** k: those of the points of l for which P holds. *)
Definition chosen (P : R * R -> Prop) (l k : list (R * R)) : Prop :=
  exists f : R * R -> bool, k = filter f l /\ forall p, In p l -> (f p = true <-> P p).

(** The logarithms of the usable ones among the systems, in any order. *)
Definition usable_points (obs pts : list (R * R)) : Prop :=
  exists f l, (forall s, f s = true <-> usable s) /\ Forall2 logs (filter f obs) l /\ Permutation l pts.

(** Less than two standard deviations from the mean width of the points of l. *)
Definition typical (l : list (R * R)) (p : R * R) : Prop :=
  Rabs (snd p - average (map snd l)) < 2 * spread (map snd l).

(** What is left of l when the points that are not typical are taken out again and again until all are. *)
Inductive clipped : list (R * R) -> list (R * R) -> Prop :=
| clip_end : forall l, (forall p, In p l -> typical l p) -> clipped l l
| clip_more : forall l l' k, chosen (typical l) l l' -> (length l' < length l)%nat -> clipped l' k -> clipped l k.

(** The distance of a point above the power law of slope (snd x) through (13.6, fst x). *)
Definition above (x p : R * R) : R := snd p - (fst x + snd x * (fst p - 13.6)).

(** Not further above, or below, the power law than the scatter of the points of l about it. *)
Definition not_above (l : list (R * R)) (x p : R * R) : Prop := above x p <= scatter (map (above x) l).
Definition not_below (l : list (R * R)) (x p : R * R) : Prop := - scatter (map (above x) l) < above x p.

(** Fitting, taking out the points above the fit and fitting again until none is: x is the last fit, k the points left. *)
Inductive settled (fit : R * R -> list (R * R) -> R * R) : R * R -> list (R * R) -> R * R -> list (R * R) -> Prop :=
| set_end : forall z l, (forall p, In p l -> not_above l (fit z l) p) -> settled fit z l (fit z l) l
| set_more : forall z l l' x k, chosen (not_above l (fit z l)) l l' -> (length l' < length l)%nat ->
    settled fit (fit z l) l' x k -> settled fit z l x k.

(** The column density of a system lies in quarter i. *)
Definition in_quarter (i : nat) (s : R * R) : Prop :=
  Rpower 10 (12.5 + INR i / 4) <= fst s < Rpower 10 (12.5 + INR (S i) / 4).
