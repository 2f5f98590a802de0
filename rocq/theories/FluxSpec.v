(** Vocabulary for the statements about flux statistics. *)
From Coq Require Import List Reals Arith Lia.
From Verif Require Import AbsorptionSpec RescaleModel RescaleSpec.
Import ListNotations.
Local Open Scope R_scope.

(** Number of elements of [l] with the property [P]. *)
Inductive number {A : Type} (P : A -> Prop) : list A -> nat -> Prop :=
| number_nil : number P [] 0
| number_yes : forall x l n, P x -> number P l n -> number P (x :: l) (S n)
| number_no : forall x l n, ~ P x -> number P l n -> number P (x :: l) n.

(** Flux f falls in bin i of n equal bins of [0,1]; the last bin contains its upper edge. *)
Definition in_bin (n i : nat) (f : R) : Prop :=
  INR i / INR n <= f /\ (f < INR (S i) / INR n \/ (S i = n /\ f = 1)).

(** Arithmetic mean. *)
Definition mean (l : list R) : R := rsum l / INR (length l).

(** The factor of the optical depths: 1, or the one that mean_flux finds for the requested mean. *)
Definition scaled_by (parts : nat -> list (list R)) (fuel : nat) (tau : list R) (desired : option R) (s : R) : Prop :=
  match desired with
  | None => s = 1
  | Some m => mean_flux parts tau m (/ 100000) (10 ^ 30) fuel = Some (Finite s)
  end.

(** The mean flux in the denominator of the contrast: the requested one, or that of the array. *)
Definition mean_used (tau : list R) (desired : option R) : R :=
  match desired with None => mean (map (fun t => exp (- t)) tau) | Some m => m end.

(** |sum_j x_j exp(-2 pi i j k / n)|^2 / n^2 *)
Definition mode_power (x : list R) (k : nat) : R :=
  let n := INR (length x) in
  (rsum (map (fun j => nth j x 0 * cos (2 * PI * INR j * INR k / n)) (seq 0 (length x))) ^ 2 +
   rsum (map (fun j => nth j x 0 * sin (2 * PI * INR j * INR k / n)) (seq 0 (length x))) ^ 2) / n ^ 2.

(** How many of the n modes of a real spectrum the mode k of its half transform stands for. *)
Definition multiplicity (n k : nat) : R := if Nat.eqb k 0 then 1 else if Nat.eqb (2 * k) n then 1 else 2.

(** The two dimensional array has rows of n elements. *)
Definition rectangular (n : nat) (tau : list (list R)) : Prop := Forall (fun r => length r = n) tau.

(** Each spectrum of [b] is that of [a] shifted periodically by its own amount. *)
Definition all_shifted (a b : list (list R)) : Prop := Forall2 (fun x y => exists k, rotated k x y) a b.
