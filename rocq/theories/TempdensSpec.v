(** Specification of a fitted power law and of a median. *)
From Coq Require Import List Reals Bool.
Import ListNotations.
Local Open Scope R_scope.

(** Sum of squares of the residuals of y = a + b x. *)
Definition squares (pts : list (R * R)) (a b : R) : R :=
  fold_right (fun p s => (snd p - (a + b * fst p)) ^ 2 + s) 0 pts.

(** The one best line. *)
Definition best_line (pts : list (R * R)) (a b : R) : Prop :=
  forall a' b', (a', b') <> (a, b) -> squares pts a b < squares pts a' b'.

(** A routine for the least squares finds a minimum. *)
Definition minimises (leastsq : list (R * R) -> R * R) : Prop :=
  forall pts a b, squares pts (fst (leastsq pts)) (snd (leastsq pts)) <= squares pts a b.

(** The range of the fit in the logarithms: one to ten times the mean density, 10^0.1 to 10^5 K. *)
Definition in_range (p : R * R) : Prop := 0 < fst p < 1 /\ 0.1 < snd p < 5.

(** [sel] is what remains of [pts] when the points out of range are left out. *)
Inductive restricted : list (R * R) -> list (R * R) -> Prop :=
| restricted_nil : restricted [] []
| restricted_in p pts sel : in_range p -> restricted pts sel -> restricted (p :: pts) (p :: sel)
| restricted_out p pts sel : ~ in_range p -> restricted pts sel -> restricted (p :: pts) sel.

(** Mean density of baryons in g / cm^3. *)
Definition mean_baryons (h z omegab : R) : R :=
  omegab * (3 * (h * 3.2407789e-18) ^ 2 / (8 * PI * 6.674e-8)) * (1 + z) ^ 3.

(** At least half of the numbers are not above [m] and at least half not below; the median is the middle of all such [m]. *)
Definition count (p : R -> bool) (l : list R) : nat := length (filter p l).
Definition halves (l : list R) (m : R) : Prop :=
  (length l <= 2 * count (fun x => if Rle_dec x m then true else false) l)%nat /\
  (length l <= 2 * count (fun x => if Rle_dec m x then true else false) l)%nat.
Definition is_median (l : list R) (m : R) : Prop :=
  exists lo hi, (forall x, halves l x <-> lo <= x <= hi) /\ lo <= hi /\ m = (lo + hi) / 2.

(** Within five per cent of the mean density. *)
Definition near_mean (delta : R) : bool := if Rlt_dec 0.95 delta then (if Rlt_dec delta 1.05 then true else false) else false.
