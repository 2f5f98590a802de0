(** Vocabulary for the statements about replacing sightlines. *)
From Coq Require Import ZArith List Reals.
From Verif Require Import AbsorptionSpec ReplaceModel.
Import ListNotations.
Local Open Scope R_scope.

(** A total column density passes the threshold. *)
Definition passes (th : threshold) (x : R) : Prop :=
  match th with Above t => t < x | Between lo hi => lo < x /\ x < hi end.

(** [sub] is the sublist of the elements of [l] with the property Q. *)
Inductive selection {A : Type} (Q : A -> Prop) : list A -> list A -> Prop :=
| selection_nil : selection Q [] []
| selection_yes : forall x l sub, Q x -> selection Q l sub -> selection Q (x :: l) (x :: sub)
| selection_no : forall x l sub, ~ Q x -> selection Q l sub -> selection Q (x :: l) sub.

(** The first m batches of sightlines (position and axis), in the order generated. *)
Definition generated {P : Type} (axis : list Z) (gen : nat -> list P) (m : nat) : list (P * Z) :=
  flat_map (fun j => combine (gen j) axis) (seq 0 m).
