(** Specification of grids, peaks and sections. *)
From Coq Require Import ZArith List Reals.
Import ListNotations.
Local Open Scope R_scope.

(** The coordinate of a position along axis 1, 2 or 3. *)
Definition along (ax : Z) (p : R * R * R) : R :=
  match p with (x, y, z) => if (ax =? 1)%Z then x else if (ax =? 2)%Z then y else z end.

(** The two other coordinates. *)
Definition across (ax : Z) (p : R * R * R) : R * R :=
  match p with (x, y, z) =>
    if (ax =? 1)%Z then (y, z) else if (ax =? 2)%Z then (x, z) else (x, y) end.

(** A sightline of the [n] by [n] grid in a box of side [box] along axis [ax]. *)
Definition grid_sightline (box : R) (n : nat) (ax : Z) (p : R * R * R) : Prop :=
  (1 <= ax <= 3)%Z /\ along ax p = 0 /\
  exists i j, (i < n)%nat /\ (j < n)%nat /\
    across ax p = (box * INR i / INR n, box * INR j / INR n).

(** The point of the grid in row [i] and column [j] of the face that axis [ax] crosses. *)
Definition grid_point (box : R) (n : nat) (ax : Z) (i j : nat) : R * R * R :=
  let u := box * INR i / INR n in
  let v := box * INR j / INR n in
  if (ax =? 1)%Z then (0, u, v) else if (ax =? 2)%Z then (u, 0, v) else (u, v, 0).

(** [m] is the maximum of [l]. *)
Definition is_max (l : list R) (m : R) : Prop := In m l /\ forall x, In x l -> x <= m.

(** The pixels [start], ..., [start + len - 1] of a spectrum. *)
Definition window (start len : nat) (l s : list R) : Prop :=
  length s = len /\ (start + len <= length l)%nat /\
  forall i, (i < len)%nat -> nth_error s i = nth_error l (start + i)%nat.
