(** Specification vocabulary for the snapshot reader. *)
From Coq Require Import ZArith List.
From Verif Require Import SnapshotModel.
Import ListNotations.
Local Open Scope Z_scope.

(** Particles of rank r when N particles are shared between [size] ranks: the first N mod size
    ranks hold one more than the others. *)
Definition fair_share (N size r : Z) : Z := N / size + (if r <? N mod size then 1 else 0).

(** Number of pieces a share is cut into. *)
Definition pieces (share chunk : Z) : Z := if share <? chunk then 1 else share / chunk.

(** Segment s names file i of n files: counted from the start, or from the end if negative. *)
Definition named (n : nat) (s : Z) (i : nat) : Prop :=
  (i < n)%nat /\ (0 <= s /\ Z.of_nat i = s \/ s < 0 /\ Z.of_nat i = Z.of_nat n + s).

(** What a call should return: the block of the file it names, or of all files. *)
Definition wanted {E} (n : nat) (files : nat -> option (list E)) (o : hop) (d : list E) : Prop :=
  match o with
  | GetData s _ => if s <? 0 then exists ds, Forall2 (fun i x => files i = Some x) (seq 0 n) ds /\ d = concat ds
                   else exists i, named n s i /\ files i = Some d
  | GetBlocklen s _ => exists i, named n s i /\ files i = Some d
  end.

(** A call that cannot fail: valid segment, every file openable and holding the block. *)
Definition good_call {E} (n : nat) (files : nat -> option (list E)) (o : hop) : Prop :=
  (forall i, (i < n)%nat -> files i <> None) /\
  match o with
  | GetData s ok => s < Z.of_nat n /\ (forall i, (i < n)%nat -> ok i = true)
  | GetBlocklen s ok => - Z.of_nat n <= s < Z.of_nat n /\ (forall i, (i < n)%nat -> ok i = true)
  end.

