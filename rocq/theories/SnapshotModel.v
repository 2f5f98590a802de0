(** Model of fake_spectra/abstractsnapshot.py: distribution of files and particles over MPI
    ranks and segments, and the open file handle kept between reads. *)
From Coq Require Import ZArith List Bool Arith.
Import ListNotations.

(** Python slicing [l[a:b]] for non-negative [a], [b] (out of range bounds are clamped). *)
Definition slice {A} (a b : nat) (l : list A) : list A := firstn (b - a) (skipn a l).

(** ** Files on each rank *)

(** abstractsnapshot.py:198-207, the branch with a communicator: the files of one rank.
    [fnames] is the sorted, non-empty glob result, [is_hdf5] the h5py test.  Returns [None]
    for the IndexError of line 206.  int(num_files/size) is integer division (exact for
    fewer than 2^53 files). *)
Definition rank_files {A} (is_hdf5 : A -> bool) (fnames : list A) (size rank : nat)
  : option (list A) :=
  let num_files := length fnames in
  let files_per_rank := num_files / size in
  let fnames_rank := slice (rank * files_per_rank) ((rank + 1) * files_per_rank) fnames in
  let remained := num_files - files_per_rank * size in
  if (1 <=? rank) && (rank <? remained + 1) then
    match nth_error fnames (files_per_rank * size + rank - 1) with
    | None => None
    | Some f => Some (filter is_hdf5 (fnames_rank ++ [f]))
    end
  else Some (filter is_hdf5 fnames_rank).

(** abstractsnapshot.py:158-164: the constructor sorts and reverses the file list (only the
    order changes, here [reorder]) and opens element 0.  [None] is the IndexError raised when
    the list is empty. *)
Definition hdf5_init {A} (reorder : list A -> list A) (files : list A) : option (list A) :=
  match reorder files with
  | [] => None
  | fs => Some fs
  end.

(** ** BigFile particles *)
Local Open Scope Z_scope.

(** abstractsnapshot.py:341-345: number of particles on each rank. *)
Definition parts_rank (npart size rank : Z) : Z :=
  npart / size + (if rank <? npart mod size then 1 else 0).

(** abstractsnapshot.py:346: int(max(1, parts/chunk_size)). *)
Definition n_segments (npart size rank chunk : Z) : Z :=
  Z.max 1 (parts_rank npart size rank / chunk).

(** abstractsnapshot.py:370-374: sum of parts_rank[0:rank]. *)
Definition first_part_rank (npart size rank : Z) : Z :=
  fold_left (fun acc r => acc + parts_rank npart size (Z.of_nat r)) (seq 0 (Z.to_nat rank)) 0.

(** abstractsnapshot.py:362-375: the half open range of particles of a segment; the end is
    [None] for a negative segment. *)
Definition segment_to_partlist (npart size rank chunk segment : Z) : Z * option Z :=
  if segment <? 0 then (0, None)
  else
    let one := parts_rank npart size rank / n_segments npart size rank chunk in
    let first := first_part_rank npart size rank in
    (first + one * segment, Some (first + one * (segment + 1))).

(** abstractsnapshot.py:331-333: the particles read by get_data for one segment. *)
Definition bigfile_get_data {A} (block : list A) (npart size rank chunk segment : Z) : list A :=
  match segment_to_partlist npart size rank chunk segment with
  | (start, None) => skipn (Z.to_nat start) block
  | (start, Some stop) => slice (Z.to_nat start) (Z.to_nat stop) block
  end.

(** spectra.py:501-520 with 0 <= fn < get_n_segments: all the particles read by one rank. *)
Definition bigfile_rank_reads {A} (block : list A) (npart size rank chunk : Z) : list A :=
  flat_map (fun s => bigfile_get_data block npart size rank chunk (Z.of_nat s))
    (seq 0 (Z.to_nat (n_segments npart size rank chunk))).

(** All the particles read by all ranks. *)
Definition bigfile_all_reads {A} (block : list A) (size chunk : Z) : list A :=
  flat_map (fun r => bigfile_rank_reads block (Z.of_nat (length block)) size (Z.of_nat r) chunk)
    (seq 0 (Z.to_nat size)).

(** ** The open handle *)

(** Python indexing of a list of length [n]: negative indices count from the end, [None] is
    IndexError. *)
Definition py_index (n : nat) (i : Z) : option nat :=
  if (0 <=? i) && (i <? Z.of_nat n) then Some (Z.to_nat i)
  else if (- Z.of_nat n <=? i) && (i <? 0) then Some (Z.to_nat (i + Z.of_nat n))
  else None.

(** The file the handle was opened on, whether it is still open, and _handle_num. *)
Record hstate := mkH { h_file : nat; h_open : bool; h_num : Z }.

(** How an access ends. *)
Inductive outcome (D : Type) :=
| Data (d : D)      (* data read *)
| IoError           (* h5py.File failed *)
| IndexError        (* segment out of range *)
| KeyError          (* no such block *)
| ClosedError.      (* access through a closed handle *)
Arguments Data {D} d. Arguments IoError {D}. Arguments IndexError {D}.
Arguments KeyError {D}. Arguments ClosedError {D}.

(** [files n] is the content of the wanted block of file number [n] ([None] when the block is
    missing).  A call also carries whether opening a file would succeed at that moment. *)
Inductive hop :=
| GetData (segment : Z) (open_ok : nat -> bool)
| GetBlocklen (segment : Z) (open_ok : nat -> bool).

(** abstractsnapshot.py:220-223 and 247-250. *)
Definition switch_handle {D} (n : nat) (st : hstate) (segment : Z) (open_ok : nat -> bool)
  : hstate * option (outcome D) :=
  if h_num st =? segment then (st, None)
  else
    let closed := mkH (h_file st) false (h_num st) in
    match py_index n segment with
    | None => (closed, Some IndexError)
    | Some i => if open_ok i then (mkH i true segment, None) else (closed, Some IoError)
    end.

(** abstractsnapshot.py:224 and 251: access through the handle. *)
Definition read_handle {D} (files : nat -> option D) (st : hstate) : outcome D :=
  if h_open st then
    match files (h_file st) with Some d => Data d | None => KeyError end
  else ClosedError.

(** abstractsnapshot.py:214-219: all files read through fresh handles, in order. *)
Fixpoint read_all {E} (files : nat -> option (list E)) (open_ok : nat -> bool) (is : list nat)
  : outcome (list E) :=
  match is with
  | [] => Data []
  | i :: is' =>
      if open_ok i then
        match files i with
        | None => KeyError
        | Some d => match read_all files open_ok is' with Data ds => Data (d ++ ds) | e => e end
        end
      else IoError
  end.

(** abstractsnapshot.py:209-224 and 243-251.  Both calls return the array of the block here;
    get_blocklen returns its length. *)
Definition hstep {E} (n : nat) (files : nat -> option (list E)) (st : hstate) (o : hop)
  : hstate * outcome (list E) :=
  match o with
  | GetData segment ok =>
      if segment <? 0 then (st, read_all files ok (seq 0 n))
      else
        match switch_handle n st segment ok with
        | (st', Some e) => (st', e)
        | (st', None) => (st', read_handle files st')
        end
  | GetBlocklen segment ok =>
      match switch_handle n st segment ok with
      | (st', Some e) => (st', e)
      | (st', None) => (st', read_handle files st')
      end
  end.

(** The state after construction (abstractsnapshot.py:163-164). *)
Definition h_init : hstate := mkH 0 true 0.

(** Run a history, collecting the outcomes. *)
Fixpoint hrun {E} (n : nat) (files : nat -> option (list E)) (st : hstate) (ops : list hop)
  : hstate * list (outcome (list E)) :=
  match ops with
  | [] => (st, [])
  | o :: ops' =>
      let (st1, r) := hstep n files st o in
      let (st2, rs) := hrun n files st1 ops' in
      (st2, r :: rs)
  end.
