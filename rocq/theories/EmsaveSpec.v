(** Vocabulary for the statements about saving emission spectra and about several processes saving at once. *)
From Coq Require Import ZArith List String.
From Verif Require Import StoreModel StoreSpec EmsaveModel.
Import ListNotations.

(** Velocities, temperatures and density-weighted densities. *)
Definition weighted_quantity (k : key) : Prop := match k with KDerived _ _ _ => True | _ => False end.

(** The column densities of at most one element in F, and the velocities of the same species. *)
Definition tiny_column {A H : Type} (size : A -> nat) (F : file A H) (e : string) (i : Z) : Prop :=
  exists c, stored F (KPlain ColDen e i) c /\ (size c <= 1)%nat.

(** What happens to the data of one process: the contents x can be read under one of the two names. *)
Definition readable {X : Type} (s : shared X) (x : X) : Prop :=
  under s (main_name s) = Some (Whole x) \/ under s (backup_name s) = Some (Whole x).

(** In a schedule, process r makes its n-th step at time t. *)
Definition at_step (sched : list nat) (r n t : nat) : Prop :=
  nth_error sched t = Some r /\ S (count_occ Nat.eq_dec (firstn t sched) r) = n.

(** Some process makes its n-th step before time t. *)
Definition some_before (sched : list nat) (n t : nat) : Prop := exists r t', at_step sched r n t' /\ (t' < t)%nat.

(** The four steps of a save: 1 look for the file, 2 move it to the backup, 3 open it for writing, 4 write and close.
    A process overtakes another: it moves the save file (step 2) after some process has opened it for writing (step 3), having looked
    for it before any move or after some opening. *)
Definition overtakes (sched : list nat) : Prop :=
  exists r t1 t2, at_step sched r 1 t1 /\ at_step sched r 2 t2 /\ some_before sched 3 t2 /\
    (~ some_before sched 2 t1 \/ some_before sched 3 t1).

(** All processes of a list save one after the other. *)
Definition one_by_one (rs : list nat) : list nat := flat_map (fun r => [r; r; r; r]) rs.
