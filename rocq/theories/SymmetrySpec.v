(** Vocabulary for the symmetries of the periodic box: isometries of gas and sightlines, boosts and changes of the amount of gas. *)
From Coq Require Import ZArith List Reals.
From Verif Require Import IndexModel AbsorptionModel PipelineModel PipelineSpec.
Import ListNotations.
Local Open Scope R_scope.

(** Coordinates and velocities by axis (1, 2, 3 is x, y, z). *)
Definition axis_number (a : Z) : Prop := a = 1%Z \/ a = 2%Z \/ a = 3%Z.
Definition pick {A} (a : Z) (x y z : A) : A := if (a =? 1)%Z then x else if (a =? 2)%Z then y else z.
Definition place (a : Z) (g : gas) : Z := pick a (p_x (g_part g)) (p_y (g_part g)) (p_z (g_part g)).
Definition speed (a : Z) (g : gas) : R := let '(x, y, z) := g_vel g in pick a x y z.
Definition line_place (a : Z) (l : sightline) : Z := pick a (l_x l) (l_y l) (l_z l).

(** Rename the axes, reverse some of them, displace, and boost. *)
Record motion := mkMotion { axes : Z -> Z; sign : Z -> Z; step : Z -> Z; boost : Z -> R }.
Definition isometry (M : motion) : Prop :=
  (forall a, axis_number a -> axis_number (axes M a) /\ (sign M a = 1%Z \/ sign M a = (-1)%Z)) /\
  (forall a b, axis_number a -> axis_number b -> axes M a = axes M b -> a = b).

(** [g'] is [g] moved, wrapped into the box in any way: same smoothing length, amount and temperature. *)
Definition moved (M : motion) (box : Z) (g g' : gas) : Prop :=
  p_h (g_part g') = p_h (g_part g) /\ g_dens g' = g_dens g /\ g_temp g' = g_temp g /\
  forall a, axis_number a ->
    (exists k, place (axes M a) g' = sign M a * place a g + step M a + k * box)%Z /\
    speed (axes M a) g' = IZR (sign M a) * speed a g + boost M a.
Definition moved_line (M : motion) (box : Z) (l l' : sightline) : Prop :=
  l_axis l' = axes M (l_axis l) /\
  forall a, axis_number a -> exists k, (line_place (axes M a) l' = sign M a * line_place a l + step M a + k * box)%Z.

(** Where pixel [j] of a sightline goes: [m] pixels on, or mirrored and [m] pixels on. *)
Definition image (M : motion) (n : nat) (l : sightline) (m : Z) (j : nat) : nat :=
  Z.to_nat ((if (sign M (l_axis l) =? 1)%Z then Z.of_nat j + m else m - 1 - Z.of_nat j) mod Z.of_nat n)%Z.

(** The spectrum is as long as the box. *)
Definition matched (su : setup) : Prop :=
  0 < velfac (su_line su) /\ 0 < vbox (su_line su) /\
  vbox (su_line su) = velfac (su_line su) * (su_unit su * IZR (su_box su)).

(** The same particle with another amount of gas. *)
Definition with_amount (d : R) (g : gas) : gas := mkGas (g_part g) (g_vel g) d (g_temp g).

(** Coordinates in units [k] times finer. *)
Definition finer_setup (k : Z) (su : setup) : setup :=
  mkSetup (su_kern su) (su_unit su / IZR k) (k * su_box su) (su_nbins su) (su_line su) (su_profile su).
Definition finer (k : Z) (g : gas) : gas :=
  mkGas (mkPart (k * p_x (g_part g)) (k * p_y (g_part g)) (k * p_z (g_part g)) (k * p_h (g_part g))) (g_vel g) (g_dens g) (g_temp g).
Definition finer_line (k : Z) (l : sightline) : sightline := mkLine (l_axis l) (k * l_x l) (k * l_y l) (k * l_z l).

(** Segments of all ranks within the limits, run with valid loop orders. *)
Definition ranks_ok (pos : bool) (su : setup) (ls : list sightline) (ranks : list (segment * list segment)) : Prop :=
  Forall (fun r => segment_ok pos su ls (fst r) /\ Forall (segment_ok pos su ls) (snd r)) ranks.

(** A line that only absorbs. *)
Definition no_gain (su : setup) : Prop :=
  (forall u a, 0 <= su_profile su u a) /\ 0 <= sigma_a (su_line su) /\ 0 < bfac (su_line su) /\ 0 < velfac (su_line su) /\ 0 < vbox (su_line su).
