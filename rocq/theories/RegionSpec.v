(** Specification of absorption regions and of halo selection. *)
From Coq Require Import ZArith List Bool.
From Verif Require Import RegionModel.
Import ListNotations.

(** [a, b) is a maximal run of true pixels of the mask [c]. *)
Definition maximal_run (c : list bool) (a b : nat) : Prop :=
  a < b <= length c /\
  (forall i, a <= i < b -> nth_error c i = Some true) /\
  (a = 0 \/ nth_error c (a - 1) = Some false) /\
  (b = length c \/ nth_error c b = Some false).

(** The distance from the end of one region to the start of the next. *)
Definition gap (r r' : nat * nat) : Z := (Z.of_nat (fst r') - Z.of_nat (snd r))%Z.

(** All neighbours in the list are related. *)
Definition neighbours {A} (R : A -> A -> Prop) (l : list A) : Prop :=
  forall l1 x y l2, l = l1 ++ x :: y :: l2 -> R x y.

(** The smallest interval containing a non-empty ordered group of regions. *)
Definition hull (g : list (nat * nat)) : nat * nat :=
  (fst (hd (0, 0) g), snd (last g (0, 0))).

(** [new] is [old] with neighbours closer than [d] merged: a partition of [old] into
    consecutive groups, internal gaps below [d], gaps between groups at least [d]. *)
Definition merged (d : Z) (old new : list (nat * nat)) : Prop :=
  exists groups, concat groups = old /\ new = map hull groups /\
    Forall (fun g => g <> []) groups /\
    Forall (neighbours (fun r r' => (gap r r' < d)%Z)) groups /\
    neighbours (fun g g' => (d <= gap (last g (0%nat, 0%nat)) (hd (0%nat, 0%nat) g'))%Z) groups.

(** Halo [h'] dominates [h]: strictly more massive and within [r] in every coordinate. *)
Definition dominates (r : Z) (h' h : halo) : Prop :=
  (ha_mass h < ha_mass h' /\ Z.abs (ha_x h' - ha_x h) < r /\
   Z.abs (ha_y h' - ha_y h) < r /\ Z.abs (ha_z h' - ha_z h) < r)%Z.
