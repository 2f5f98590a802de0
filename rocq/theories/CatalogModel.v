(** Model of the reading of halo catalogues: fake_spectra/subfindhdf.py and load_halo of
    fake_spectra/haloassigned_spectra.py:88-107. *)
From Coq Require Import Ascii String List Bool Arith.
From Verif Require Import OpenModel.
Import ListNotations.
Local Open Scope string_scope.

Section Catalog.
(** A row of a dataset: one halo's value. *)
Variable row : Type.

(** A dataset or array: whether its elements are integers, its shape after the first dimension, and its rows.  Scalar datasets
    do not occur. *)
Record column := mkCol { c_int : bool; c_width : list nat; c_rows : list row }.

(** A file of the catalogue: whether h5py can open it, the totals of its Header (subfindhdf.py:21-24; the third total is never
    used and left out), and its groups Group and Subhalo with their datasets; None where there is no such group. *)
Record file := mkFile { f_good : bool; f_header : option (nat * nat);
                        f_group : option (list (string * column)); f_sub : option (list (string * column)) }.

(** The two sets of arrays (subfindhdf.py:30-31). *)
Inductive dset := Group | Subhalo.

(** What a call returns or raises. *)
Inductive res (A : Type) := Ok (a : A) | IndexError | KeyError | IOError | TypeError | ValueError | AssertionError.
Arguments Ok {A}. Arguments IndexError {A}. Arguments KeyError {A}. Arguments IOError {A}. Arguments TypeError {A}.
Arguments ValueError {A}. Arguments AssertionError {A}.

(** An exception ends the rest (Python's propagation of exceptions). *)
Definition bind {A B} (r : res A) (f : A -> res B) : res B :=
  match r with
  | Ok a => f a
  | IndexError => IndexError | KeyError => KeyError | IOError => IOError
  | TypeError => TypeError | ValueError => ValueError | AssertionError => AssertionError
  end.

(** sorted() of names (subfindhdf.py:17): insertion sort by name. *)
Fixpoint insert_file (f : string * file) (l : list (string * file)) : list (string * file) :=
  match l with
  | [] => [f]
  | g :: l' => if String.leb (fst f) (fst g) then f :: l else g :: insert_file f l'
  end.

(** subfindhdf.py:17 *)
Definition sort_files (l : list (string * file)) : list (string * file) := fold_right insert_file [] l.

(** The object: the files and the totals (subfindhdf.py:17-24). *)
Record subfind := mkSub { s_files : list file; s_sizes : nat * nat }.

(** subfindhdf.py:12-31; [listing] is the content of the directory groups_NNN, in any order (empty if there is no such
    directory). *)
Definition open_cat (listing : list (string * file)) (num : nat) : res subfind :=
  let foffiles := sort_files (filter (fun f => glob_match ("fof_subhalo_tab_" ++ snap num) ".hdf5" (fst f)) listing) in
  match foffiles with
  | [] => IndexError
  | (_, f) :: _ =>
      if f_good f then
        match f_header f, f_group f, f_sub f with
        | Some sizes, Some _, Some _ => Ok (mkSub (map snd foffiles) sizes)
        | _, _, _ => KeyError
        end
      else IOError
  end.

(** f[dset][name] (subfindhdf.py:45); None: a KeyError. *)
Definition dataset (f : file) (d : dset) (name : string) : option column :=
  match (match d with Group => f_group f | Subhalo => f_sub f end) with
  | None => None
  | Some l => match find (fun p => String.eqb (fst p) name) l with Some p => Some (snd p) | None => None end
  end.

(** subfindhdf.py:41-55; [shapes] is the shape of the array in the first file without its first entry.  An empty numpy array is
    one of floats. *)
Definition get_single_file_array (f : file) (d : dset) (name : string) (shapes : option (list nat)) : res column :=
  if f_good f then
    match dataset f d name with
    | Some c => Ok c
    | None => match shapes with None => TypeError | Some w => Ok (mkCol false w []) end
    end
  else IOError.

(** The list comprehension of subfindhdf.py:64. *)
Fixpoint all_files (fs : list file) (d : dset) (name : string) (shapes : list nat) : res (list column) :=
  match fs with
  | [] => Ok []
  | f :: fs' =>
      bind (get_single_file_array f d name (Some shapes)) (fun c =>
      bind (all_files fs' d name shapes) (fun cs => Ok (c :: cs)))
  end.

(** numpy concatenate: all shapes must agree but for the first dimension; the result is of integers if all parts are. *)
Definition concatenate (cs : list column) : res column :=
  match cs with
  | [] => ValueError
  | c :: _ =>
      if forallb (fun c' => if list_eq_dec Nat.eq_dec (c_width c') (c_width c) then true else false) cs
      then Ok (mkCol (forallb c_int cs) (c_width c) (concat (map c_rows cs))) else ValueError
  end.

(** subfindhdf.py:62-66: reading an array that is not in the cache. *)
Definition read_array (s : subfind) (d : dset) (name : string) : res column :=
  match s_files s with
  | [] => IndexError
  | f0 :: _ =>
      bind (get_single_file_array f0 d name None) (fun c0 =>
      bind (all_files (s_files s) d name (c_width c0)) (fun cs =>
      bind (concatenate cs) (fun data =>
      if Nat.eqb (length (c_rows data)) (match d with Group => fst (s_sizes s) | Subhalo => snd (s_sizes s) end)
      then Ok data else AssertionError)))
  end.

(** The two dictionaries of subfindhdf.py:29-31 as one list. *)
Definition cache := list ((dset * string) * column).

(** The key of a dictionary lookup. *)
Definition same_key (a b : dset * string) : bool :=
  match fst a, fst b with
  | Group, Group | Subhalo, Subhalo => String.eqb (snd a) (snd b)
  | _, _ => false
  end.

(** subfindhdf.py:57-76: get_grp and get_sub. *)
Definition get_array (s : subfind) (k : cache) (d : dset) (name : string) : res column * cache :=
  match find (fun p => same_key (fst p) (d, name)) k with
  | Some p => (Ok (snd p), k)
  | None =>
      match read_array s d name with
      | Ok data => (Ok data, ((d, name), data) :: k)
      | r => (r, k)
      end
  end.

(** A sequence of calls on one object. *)
Fixpoint get_arrays (s : subfind) (k : cache) (calls : list (dset * string)) : list (res column) :=
  match calls with
  | [] => []
  | (d, name) :: rest => let (r, k') := get_array s k d name in r :: get_arrays s k' rest
  end.

(** haloassigned_spectra.py:95-105: the arrays read by load_halo, in order. *)
Definition wanted : list (dset * string) :=
  [(Group, "GroupPos"); (Group, "Group_M_Crit200"); (Group, "Group_R_Crit200"); (Group, "GroupVel");
   (Subhalo, "SubhaloHalfmassRad"); (Subhalo, "SubhaloPos"); (Subhalo, "SubhaloMass"); (Subhalo, "SubhaloGrNr");
   (Subhalo, "SubhaloVel")].

(** What load_halo did: all arrays loaded, the IOError ignored (106-107), or another exception. *)
Inductive loaded := Loaded (arrays : list column) | Ignored | Raised.

(** haloassigned_spectra.py:95-105: reading until the first exception. *)
Fixpoint load_all (s : subfind) (k : cache) (calls : list (dset * string)) : res (list column) :=
  match calls with
  | [] => Ok []
  | (d, name) :: rest =>
      let (r, k') := get_array s k d name in
      bind r (fun c => bind (load_all s k' rest) (fun cs => Ok (c :: cs)))
  end.

(** haloassigned_spectra.py:88-107 (the arrays already assigned when an IOError comes remain; every array needs every file, so
    there are none then). *)
Definition load_halo (listing : list (string * file)) (num : nat) : loaded :=
  match bind (open_cat listing num) (fun s => load_all s [] wanted) with
  | Ok cs => Loaded cs
  | IOError => Ignored
  | _ => Raised
  end.

End Catalog.

Arguments mkCol {row}. Arguments c_int {row}. Arguments c_width {row}. Arguments c_rows {row}.
Arguments mkFile {row}. Arguments f_good {row}. Arguments f_header {row}. Arguments f_group {row}. Arguments f_sub {row}.
Arguments Ok {A}. Arguments IndexError {A}. Arguments KeyError {A}. Arguments IOError {A}. Arguments TypeError {A}.
Arguments ValueError {A}. Arguments AssertionError {A}.
Arguments mkSub {row}. Arguments s_files {row}. Arguments s_sizes {row}.
Arguments open_cat {row}. Arguments dataset {row}. Arguments read_array {row}. Arguments get_array {row}.
Arguments get_arrays {row}. Arguments load_halo {row}. Arguments Loaded {row}. Arguments Ignored {row}. Arguments Raised {row}.
Arguments insert_file {row}. Arguments sort_files {row}. Arguments get_single_file_array {row}. Arguments all_files {row}.
Arguments concatenate {row}. Arguments load_all {row}. Arguments cache row : clear implicits. Arguments bind {A B}.
