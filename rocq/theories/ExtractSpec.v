(** Specification vocabulary for the command line extractor. *)
From Coq Require Import Ascii String.
From Coq Require Import List ZArith Reals.
From Verif Require Import ExtractModel.
Import ListNotations.
Local Open Scope nat_scope.

(** The name of file [k] of a set. *)
Definition member (base : name) (k : nat) : name :=
  base ++ list_ascii_of_string "." ++ decimal k ++ list_ascii_of_string ".hdf5".

(** A set of exactly [n] readable files. *)
Definition file_set (disk : name -> file) (base : name) (n : nat) : Prop :=
  (forall k, k < n -> exists p, disk (member base k) = Hdf5 p) /\
  (forall k, n <= k -> disk (member base k) = Missing).

(** [.0.hdf5] occurs only at the end of the name of the first file. *)
Definition plain (base : name) : Prop :=
  forall a b, base ++ zero_suffix = a ++ zero_suffix ++ b -> b = [].

(** A file in HDF5 format, whether or not its header and its gas can be read. *)
Definition hdf5_file (f : file) : Prop := f <> Missing /\ f <> NotHdf5.

(** The input names the set: without suffix, or its first file. *)
Definition names_set (disk : name -> file) (base indir : name) : Prop :=
  (indir = base /\ ~ hdf5_file (disk base)) \/ indir = base ++ zero_suffix.

(** [l] is a sightline in the box along one of the three axes. *)
Definition inside (box : R) (l : sightline) : Prop :=
  (0 <= l_x l <= box /\ 0 <= l_y l <= box /\ 0 <= l_z l <= box)%R.
Definition real_axis (l : sightline) : Prop := (1 <= l_axis l <= 3)%Z.

(** A line of the table in Mpc, and the sightline in kpc it stands for. *)
Definition scaled (l : sightline) : sightline :=
  Sightline (l_axis l) (l_x l * 1000) (l_y l * 1000) (l_z l * 1000).
Definition fits (box : R) (l : sightline) : Prop :=
  (0 <= l_axis l <= 3)%Z /\
  (0 <= l_x l * 1000 <= box /\ 0 <= l_y l * 1000 <= box /\ 0 <= l_z l * 1000 <= box)%R.

(** Sightlines drawn from the stream [u], starting at the number [pos]: numbers below a quarter are passed over, the quarter of the next one
    is the axis, and the three numbers after it are the position in units of the box. *)
Inductive drawn_from (u : nat -> R) (box : R) : nat -> list sightline -> Prop :=
| drawn_none : forall pos, drawn_from u box pos []
| drawn_one : forall pos p axis out, pos <= p -> (forall q, pos <= q < p -> (u q < 1 / 4)%R) ->
    (1 <= axis <= 3)%Z -> (IZR axis / 4 <= u p < (IZR axis + 1) / 4)%R -> drawn_from u box (p + 4) out ->
    drawn_from u box pos (Sightline axis (u (p + 1) * box) (u (p + 2) * box) (u (p + 3) * box) :: out).
