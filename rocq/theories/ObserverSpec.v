(** Vocabulary for the statements about observed lines. *)
From Coq Require Import List Reals.
Import ListNotations.
Local Open Scope R_scope.

(** A line is visible if its peak is above 0.1, and usable if moreover its peak is below 3. *)
Definition visible (x : R) : Prop := / 10 < x.
Definition usable (x : R) : Prop := / 10 < x /\ x < 3.

(** Line k has the peak wanted by the observer. *)
Definition wanted (peaks : list R) (k : nat) : Prop :=
  let at_ i := nth i peaks 0 in
  let is i := (i < length peaks)%nat in
  is k /\
  ((usable (at_ k) /\ forall i, is i -> usable (at_ i) -> at_ i <= at_ k) \/
   ((forall i, is i -> ~ usable (at_ i)) /\ visible (at_ k) /\ forall i, is i -> visible (at_ i) -> at_ k <= at_ i) \/
   ((forall i, is i -> ~ visible (at_ i)) /\ forall i, is i -> at_ i <= at_ k)).

(** The first line wanted. *)
Definition best_line (peaks : list R) (k : nat) : Prop :=
  wanted peaks k /\ forall i, wanted peaks i -> (k <= i)%nat.

(** m is the largest element of l. *)
Definition largest (m : R) (l : list R) : Prop := In m l /\ forall x, In x l -> x <= m.
