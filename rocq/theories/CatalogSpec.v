(** Specification of halo catalogues split over files. *)
From Coq Require Import Ascii String List Bool Arith Permutation.
From Verif Require Import OpenModel CatalogModel.
Import ListNotations.
Local Open Scope string_scope.

(** The name of part [i] of the catalogue of snapshot [n]. *)
Definition part (n i : nat) : string := "fof_subhalo_tab_" ++ snap n ++ "." ++ decimal (S i) i ++ ".hdf5".

(** The directory holds the parts 0, ..., m - 1 of the catalogue of snapshot [n], and possibly other files, none of which
    looks like a part. *)
Definition holds {row} (n m : nat) (content : nat -> file row) (listing : list (string * file row)) : Prop :=
  exists others, Permutation listing (map (fun i => (part n i, content i)) (seq 0 m) ++ others) /\
    forall name f, In (name, f) others -> forall mid, name <> "fof_subhalo_tab_" ++ snap n ++ mid ++ ".hdf5".

(** The rows of a dataset in a file: none if it is missing. *)
Definition rows_of {row} (f : file row) (d : dset) (name : string) : list row :=
  match dataset f d name with Some c => c_rows c | None => [] end.

(** Every file can be opened, and where it has the dataset its rows have shape [w]. *)
Definition uniform {row} (fs : list (file row)) (d : dset) (name : string) (w : list nat) : Prop :=
  forall f, In f fs -> f_good f = true /\ forall c, dataset f d name = Some c -> c_width c = w.

(** Every file has the dataset, as integers. *)
Definition all_integer {row} (fs : list (file row)) (d : dset) (name : string) : Prop :=
  forall f, In f fs -> exists c, dataset f d name = Some c /\ c_int c = true.

(** Row [k] of files of [cnt] rows each, read one after the other, is row [i] of file [j]. *)
Definition origin {row} (cnt : file row -> nat) (fs : list (file row)) (k j i : nat) : Prop :=
  exists f, nth_error fs j = Some f /\ i < cnt f /\ k = list_sum (map cnt (firstn j fs)) + i.

(** The arrays that describe groups and subhalos: centre, mass, radius and velocity, and the group of a subhalo. *)
Definition halo_arrays : list (dset * string) :=
  [(Group, "GroupPos"); (Group, "Group_M_Crit200"); (Group, "Group_R_Crit200"); (Group, "GroupVel");
   (Subhalo, "SubhaloHalfmassRad"); (Subhalo, "SubhaloPos"); (Subhalo, "SubhaloMass"); (Subhalo, "SubhaloGrNr");
   (Subhalo, "SubhaloVel")].
