(** Model of the opening of a snapshot: fake_spectra/abstractsnapshot.py (AbstractSnapshotFactory, the
    constructors of HDF5Snapshot and BigFileSnapshot, _get_all_files) and of the block names of the two
    formats.  Directories are lists of names; the name of the simulation directory itself is assumed to
    contain no character special to glob. *)
From Coq Require Import Ascii String ZArith List Bool Arith.
From Verif Require Import SnapshotModel.
Import ListNotations.
Local Open Scope string_scope.

(** str(n) for a decimal digit *)
Definition digit (d : nat) : string := String (ascii_of_nat (48 + d)) EmptyString.

(** str(num) for num >= 0, fuel [f] at least the number of digits (abstractsnapshot.py:175 and 315). *)
Fixpoint decimal (f n : nat) : string :=
  match f with
  | O => EmptyString
  | S f' => if (n <? 10)%nat then digit n else decimal f' (n / 10)%nat ++ digit (n mod 10)%nat
  end.

(** .rjust(3,'0') (abstractsnapshot.py:175 and 315) *)
Definition rjust3 (s : string) : string :=
  match String.length s with
  | 0 => "000" | 1 => "00" ++ s | 2 => "0" ++ s | _ => s
  end.

(** abstractsnapshot.py:175 and 315: [snap]. *)
Definition snap (n : nat) : string := rjust3 (decimal (S n) n).

(** s ends with t *)
Definition ends_with (t s : string) : bool :=
  (String.length t <=? String.length s)%nat &&
  String.eqb (substring (String.length s - String.length t) (String.length t) s) t.

(** glob pattern a + "*" + b (abstractsnapshot.py:188, 190): starts with a, and what follows ends with b. *)
Definition glob_match (a b s : string) : bool :=
  prefix a s && ends_with b (substring (String.length a) (String.length s - String.length a) s).

(** What is on disk.  [listing d] is the content of the directory d inside the simulation directory (the
    simulation directory itself is ""): names, and for each whether h5py.is_hdf5 holds; [None] if there is
    no such directory.  [big d] is what bigfile finds there. *)
Inductive bigstate := NoBig (* BigFileError *) | NoHeader (* opens, without a Header block *) | GoodBig.
Record disk := mkDisk { listing : string -> option (list (string * bool)); big : string -> bigstate }.

(** The content of a directory; of a missing one nothing. *)
Definition names_in (k : disk) (d : string) : list (string * bool) :=
  match listing k d with Some l => l | None => [] end.

(** abstractsnapshot.py:177-186: the directory searched.  With a communicator it is always the simulation
    directory. *)
Definition search_dir (k : disk) (comm : option (nat * nat)) (n : nat) : string :=
  match comm with
  | Some _ => ""
  | None => match listing k ("snapdir_" ++ snap n) with Some _ => "snapdir_" ++ snap n | None => "" end
  end.

(** abstractsnapshot.py:188, 190 *)
Definition globbed (k : disk) (d word : string) (n : nat) : list (string * bool) :=
  filter (fun f => glob_match (word ++ snap n) "hdf5" (fst f)) (names_in k d).

(** list.sort() on names (abstractsnapshot.py:161, 193): insertion sort, ascending. *)
Fixpoint insert_name (f : string * bool) (l : list (string * bool)) : list (string * bool) :=
  match l with
  | [] => [f]
  | g :: l' => if String.leb (fst f) (fst g) then f :: l else g :: insert_name f l'
  end.
(** abstractsnapshot.py:161, 193, with the definition above. *)
Definition sort_names (l : list (string * bool)) : list (string * bool) := fold_right insert_name [] l.

(** What opening a snapshot gives. *)
Inductive opened :=
| Hdf5 (dir : string) (files : list string)   (* the files in the order of the segments *)
| Big (dir : string)
| IOErr                                       (* IOError *)
| IndexErr.                                   (* IndexError *)

(** abstractsnapshot.py:158-207: the HDF5Snapshot constructor.  [comm] is rank and size.  Files that
    pass is_hdf5 are assumed to open. *)
Definition open_hdf5 (k : disk) (comm : option (nat * nat)) (n : nat) : opened :=
  let d := search_dir k comm n in
  let f1 := globbed k d "snap_" n in
  let fnames := match f1 with [] => globbed k d "snapshot_" n | _ => f1 end in
  match fnames with
  | [] => IOErr
  | _ =>
      let sorted := sort_names fnames in
      let mine := match comm with
                  | None => Some (filter snd sorted)
                  | Some (rank, size) => rank_files snd sorted size rank
                  end in
      match mine with
      | None => IndexErr
      | Some fs =>
          match hdf5_init (fun l => rev (sort_names l)) fs with
          | None => IndexErr
          | Some fs' => Hdf5 d (map fst fs')
          end
      end
  end.

(** abstractsnapshot.py:314-322: the BigFileSnapshot constructor; [None] is IOError or BigFileError.
    [part] is os.path.exists of PART_NNN. *)
Definition open_big (k : disk) (n : nat) : option string :=
  let d := match listing k ("PART_" ++ snap n) with Some _ => "PART_" ++ snap n | None => "" end in
  match big k d with GoodBig => Some d | _ => None end.

(** abstractsnapshot.py:16-27; [has_bigfile] is whether the bigfile package is installed. *)
Definition factory (k : disk) (has_bigfile : bool) (comm : option (nat * nat)) (n : nat) : opened :=
  match open_hdf5 k comm n with
  | IOErr =>
      if has_bigfile then
        match open_big k n with Some d => Big d | None => IOErr end
      else IOErr
  | r => r
  end.

(** ** Block names *)

(** abstractsnapshot.py:33-37 *)
Definition name_map : list (string * string) :=
  [("Coordinates", "Position"); ("Velocities", "Velocity"); ("Masses", "Mass");
   ("NeutralHydrogenAbundance", "NeutralHydrogenFraction"); ("GFM_Metallicity", "Metallicity")].

(** dictionary lookup with the name itself as default (abstractsnapshot.py:212-213, 245-246, 329-330,
    350-351) *)
Fixpoint lookup (m : list (string * string)) (x : string) : string :=
  match m with
  | [] => x
  | (a, b) :: m' => if String.eqb x a then b else lookup m' x
  end.

(** abstractsnapshot.py:329-330 and 350-351 *)
Definition big_name (x : string) : string := lookup name_map x.

(** abstractsnapshot.py:39, 212-213 and 245-246: the inverse dictionary *)
Definition hdf_name (x : string) : string := lookup (map (fun p => (snd p, fst p)) name_map) x.

(** ** BigFile blocks *)

(** abstractsnapshot.py:325-335 get_data; [None] is KeyError.  [blocks] maps names to contents. *)
Definition big_get_data {A} (blocks : string -> option (list A)) (npart size rank chunk : Z) (x : string)
    (segment : Z) : option (list A) :=
  match blocks (big_name x) with
  | None => None
  | Some b => Some (bigfile_get_data b npart size rank chunk segment)
  end.

(** abstractsnapshot.py:348-360 get_blocklen; [None] is KeyError.  The block is only looked at when the
    segment is negative. *)
Definition big_get_blocklen {A} (blocks : string -> option (list A)) (npart size rank chunk : Z) (x : string)
    (segment : Z) : option Z :=
  match segment_to_partlist npart size rank chunk segment with
  | (start, Some stop) => Some (stop - start)%Z
  | (start, None) =>
      match blocks (big_name x) with
      | None => None
      | Some b => Some (Z.of_nat (List.length b) - start)%Z
      end
  end.

(** abstractsnapshot.py:209-224 get_data of an HDF5 snapshot of files [fs], each mapping names to
    contents (the bookkeeping of the open handle is in SnapshotModel, C33); [None] is KeyError or
    IndexError. *)
Definition hdf_get_data {A} (fs : list (string -> option (list A))) (x : string) (segment : Z)
  : option (list A) :=
  if (segment <? 0)%Z then
    fold_right (fun f acc => match f (hdf_name x), acc with Some d, Some ds => Some (d ++ ds)%list | _, _ => None end)
      (Some []) fs
  else
    match nth_error fs (Z.to_nat segment) with
    | Some f => f (hdf_name x)
    | None => None
    end.

(** abstractsnapshot.py:243-251 get_blocklen of an HDF5 snapshot. *)
Definition hdf_get_blocklen {A} (fs : list (string -> option (list A))) (x : string) (segment : Z)
  : option Z :=
  match py_index (List.length fs) segment with
  | None => None
  | Some i =>
      match nth_error fs i with
      | Some f => match f (hdf_name x) with Some d => Some (Z.of_nat (List.length d)) | None => None end
      | None => None
      end
  end.
