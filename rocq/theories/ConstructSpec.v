(** What a user expects of the constructors, in terms of the arguments and of the object. *)
From Coq Require Import Ascii String Reals ZArith List.
From Verif Require Import OpenSpec ConstructModel.
Import ListNotations.
Local Open Scope string_scope.

(** [z] is the whole number at or next to [x] on the side of zero. *)
Definition toward_zero (x : R) (z : Z) : Prop :=
  ((0 <= x /\ IZR z <= x < IZR z + 1) \/ (x <= 0 /\ IZR z - 1 < x <= IZR z))%R.

(** The positions that can be given, and what the object makes of them: three numbers are one sightline. *)
Inductive takes_cofm : pos_arg -> positions -> Prop :=
| takes_one : forall arr x y z, takes_cofm (PFlat arr [x; y; z]) (Rows [[x; y; z]])
| takes_rows : forall rows, takes_cofm (PRows true rows) (Rows rows)
| takes_flat : forall l, length l <> 3 -> takes_cofm (PFlat true l) (Flat l).

(** The axes that can be given: a number, or an array. *)
Inductive takes_axis : axis_arg -> list Z -> Prop :=
| takes_number : forall x z, toward_zero x z -> takes_axis (ANum x) [z]
| takes_array : forall l zs, Forall2 toward_zero l zs -> takes_axis (AVec true l) zs.

(** The kernels: absorption.h numbers them 0 top hat, 1 cubic SPH, 2 Voronoi, 3 quintic. *)
Definition kernel_names : list (string * Z) := [("tophat", 0); ("cubic", 1); ("sph", 1); ("voronoi", 2); ("quintic", 3)]%Z.
Inductive takes_kernel (default : Z) : kernel_arg -> Z -> Prop :=
| takes_default : takes_kernel default KNone default
| takes_name : forall s k, In (s, k) kernel_names -> takes_kernel default (KStr s) k.

(** [p] is [f] inside the directory [d]; both are names without a trailing, respectively leading, slash. *)
Definition inside (d f p : string) : Prop := p = d ++ "/" ++ f.

Definition relative (f : string) : Prop := match f with String c _ => c <> "/"%char | EmptyString => False end.
Definition plain (d : string) : Prop := exists e c, d = e ++ String c "" /\ c <> "/"%char.

(** The directory for snapshot [n] of the simulation in [base]. *)
Definition dir_of (word base : string) (n : nat) (d : string) : Prop :=
  exists num, numeral num n /\ d = base ++ "/" ++ word ++ num.
