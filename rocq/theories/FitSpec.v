(** Vocabulary for the statements about the Voigt profile fitter. *)
From Coq Require Import ZArith List Reals.
From Verif Require Import AbsorptionSpec.
Import ListNotations.
Local Open Scope R_scope.

(** The distance from pixel i to pixel j of a periodic spectrum of n pixels, between -n/2 and n/2. *)
Definition arc (n : nat) (j i : Z) : Z := ((j - i + Z.of_nat (n / 2)) mod Z.of_nat n - Z.of_nat (n / 2))%Z.

(** A peak: width, pixel, height. *)
Definition peak : Type := R * nat * R.
Definition width (p : peak) : R := fst (fst p).
Definition pixel_of (p : peak) : nat := snd (fst p).
Definition height (p : peak) : R := snd p.

(** The sum of the profiles of some peaks at pixel j. *)
Definition fitted (voigt : R -> Z -> R) (n : nat) (ps : list peak) (j : nat) : R :=
  rsum (map (fun p => height p * voigt (width p) (arc n (Z.of_nat j) (Z.of_nat (pixel_of p)))) ps).

(** What is left of the spectrum at pixel j. *)
Definition left_over (voigt : R -> Z -> R) (tau : list R) (ps : list peak) (j : nat) : R :=
  nth j tau 0 - fitted voigt (length tau) ps j.

(** A profile of height 1 at its maximum, positive and lower everywhere else. *)
Definition peaked (voigt : R -> Z -> R) (w : R) : Prop := voigt w 0%Z = 1 /\ forall d, d <> 0%Z -> 0 < voigt w d < 1.

(** A minimiser of functions of the interval [1, 120]: the result lies there and the function was evaluated
    at it; if the function can be evaluated everywhere there is a result. *)
Definition honest (bounded : (R -> option R) -> option R) : Prop :=
  (forall g w, bounded g = Some w -> 1 <= w <= 120 /\ exists v, g w = Some v) /\
  (forall g, (forall w, 1 <= w <= 120 -> exists v, g w = Some v) -> exists w, bounded g = Some w).

Definition highest (l : list R) (m : R) : Prop := In m l /\ forall x, In x l -> x <= m.

(** A single hump on a circle cut where it is lowest, between two equal pixels: g 0 = g (n-1) and there is
    no other local minimum. *)
Definition one_hump (n : nat) (g : nat -> R) : Prop :=
  g 0%nat = g (n - 1)%nat /\
  forall k, (0 < k)%nat -> (k < n - 1)%nat -> ~ (g k <= g (k - 1)%nat /\ g k <= g (k + 1)%nat).

(** The spectrum seen from pixel i, which comes to n/2. *)
Definition seen_from (n i : nat) (g : nat -> R) (k : nat) : R :=
  g (Z.to_nat ((Z.of_nat k + Z.of_nat i - Z.of_nat (n / 2)) mod Z.of_nat n)).

(** The peaks come from the spectrum: each one sits on a pixel of its own and has the height of what the peaks
    before it left there, above the tolerance and at least as high as at any pixel where their sum is below
    the saturation limit. *)
Definition from_spectrum (voigt : R -> Z -> R) (realtol sattau : R) (tau : list R) (ps : list peak) : Prop :=
  NoDup (map pixel_of ps) /\
  forall before p after, ps = before ++ p :: after ->
    1 <= width p <= 120 /\ (pixel_of p < length tau)%nat /\ height p = left_over voigt tau before (pixel_of p) /\
    realtol < height p /\
    forall j, (j < length tau)%nat -> fitted voigt (length tau) before j < sattau -> left_over voigt tau before j <= height p.

(** What the fit of k peaks is compared with: twice the first fit, then the fit before the last. *)
Definition earlier (f : nat -> R) (k : nat) : R := if (k =? 3)%nat then 2 * f 2%nat else f (k - 2)%nat.

(** The fit of k peaks is good enough; nothing is below a fraction of 0 but 0 itself. *)
Definition significant (signif : R) (f : nat -> R) (k : nat) : Prop :=
  (earlier f k <> 0 -> f k / earlier f k <= signif) /\ (earlier f k = 0 -> f k <= 0).
