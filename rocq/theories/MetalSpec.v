(** Specification of metallicities near a peak and of a normalised histogram of equivalent widths. *)
From Coq Require Import Ascii String ZArith List Reals.
From Verif Require Import MetalModel.
Import ListNotations.
Local Open Scope R_scope.

(** Pixel [i] of a periodic spectrum, for any integer [i]. *)
Definition pixel (row : list R) (i : Z) : R := nth (Z.to_nat (i mod Z.of_nat (length row))) row 0.

Definition sum (l : list R) : R := fold_right Rplus 0 l.

(** [p] is the first pixel at which the spectrum is largest. *)
Definition first_peak (row : list R) (p : nat) : Prop :=
  (p < length row)%nat /\
  (forall i, (i < length row)%nat -> nth i row 0 <= nth p row 0) /\
  (forall i, (i < p)%nat -> nth i row 0 < nth p row 0).

(** Sum over the pixels p - w, ..., p + w - 1. *)
Definition around (row : list R) (p w : nat) : R :=
  sum (map (fun k => pixel row (Z.of_nat p - Z.of_nat w + Z.of_nat k)) (seq 0 (2 * w))).

(** [w] whole pixels fit into the width. *)
Definition whole (width dvbin : R) (w : nat) : Prop := INR w * dvbin <= width < INR (S w) * dvbin.

(** [q] is the quotient a / b in units of c. *)
Definition ratio (a b c : R) (q : quotient) : Prop := (b = 0 /\ q = NotFinite) \/ (b <> 0 /\ q = Num (a / b / c)).

(** Solar abundances by number relative to hydrogen. *)
Definition abundances : list (string * R) :=
  [("H", 1); ("He", 0.0851); ("C", 2.69e-4); ("N", 6.76e-5); ("O", 4.9e-4); ("Ne", 8.51e-5); ("Mg", 3.98e-5); ("Si", 3.24e-5);
   ("Fe", 3.16e-5)]%string.

(** The spectrum moved by [k] pixels. *)
Definition moved (k : Z) (row row' : list R) : Prop :=
  length row' = length row /\ forall i, pixel row' i = pixel row (i - k).

(** A value falls into bin [i] of [n] bins of size [dv] from [lo]; the last contains its upper edge. *)
Definition in_bin (lo dv : R) (n i : nat) (x : R) : Prop :=
  lo + INR i * dv <= x /\ (x < lo + INR (S i) * dv \/ (S i = n /\ x = lo + INR n * dv)).

(** The smallest and the largest of the positive numbers of a list. *)
Definition least (ws : list R) (lo : R) : Prop := In lo ws /\ 0 < lo /\ forall w, In w ws -> 0 < w -> lo <= w.
Definition greatest (ws : list R) (hi : R) : Prop := In hi ws /\ 0 < hi /\ forall w, In w ws -> w <= hi.
