(** C71: which files a snapshot is read from, and under which names its blocks are found. *)
From Coq Require Import Ascii String ZArith List Bool Arith Lia.
From Verif Require Import SnapshotModel OpenModel OpenSpec OpenProofs OpenProofs2.
Import ListNotations.
Local Open Scope string_scope.
Local Open Scope nat_scope.
Local Open Scope list_scope.

(** The segments are exactly the HDF5 files of that snapshot in its directory, each once, in descending
    order of names. *)
Theorem C71_files : forall k has_bigfile n d l, home k n d l -> NoDup (map fst l) ->
  (exists f, member l n (f, true)) ->
  exists files, factory k has_bigfile None n = Hdf5 d files /\ descending files /\
    forall f, In f files <-> member l n (f, true).
Proof. exact C71_files_aux. Qed.
Print Assumptions C71_files.

(** A BigFile snapshot is used when no name matches, and IOError is raised when there is neither. *)
Theorem C71_formats : forall k n d l, home k n d l -> (forall f, ~ member l n f) ->
  factory k false None n = IOErr /\
  (forall b, bigfile_at k n b -> factory k true None n = Big b) /\
  ((forall b, ~ bigfile_at k n b) -> factory k true None n = IOErr).
Proof. exact C71_formats_aux. Qed.
Print Assumptions C71_formats.

Definition a_disk : disk :=
  mkDisk (fun d => if String.eqb d "snapdir_007" then
                     Some [("snap_007.0.hdf5", true); ("snap_007.10.hdf5", true); ("snap_007.2.hdf5", true);
                           ("snap_008.0.hdf5", true); ("snap_007.3.hdf5", false); ("snapshot_007.hdf5", true)]
                   else if String.eqb d "" then Some [("snap_007.hdf5", true); ("PART_012", false); ("snapshot_011.hdf5", true)]
                   else if String.eqb d "PART_012" then Some [] else None)
         (fun d => if String.eqb d "PART_012" then GoodBig else NoBig).
Example C71_files_example :
  factory a_disk true None 7 = Hdf5 "snapdir_007" ["snap_007.2.hdf5"; "snap_007.10.hdf5"; "snap_007.0.hdf5"] /\
  factory a_disk true None 11 = Hdf5 "" ["snapshot_011.hdf5"] /\
  factory a_disk true None 12 = Big "PART_012" /\ factory a_disk true None 13 = IOErr.
Proof. repeat split. Qed.

(** With a communicator the ranks share the files of the simulation directory; a rank without a file
    raises IndexError. *)
Theorem C71_ranks : forall k has_bigfile n l size, listing k "" = Some l -> NoDup (map fst l) -> 0 < size ->
  (exists f, member l n f) ->
  exists shares, length shares = size /\
    (forall r, r < size -> exists fs, nth_error shares r = Some fs /\ descending fs /\
       factory k has_bigfile (Some (r, size)) n = match fs with [] => IndexErr | _ => Hdf5 "" fs end) /\
    NoDup (concat shares) /\ forall f, In f (concat shares) <-> member l n (f, true).
Proof. exact C71_ranks_aux. Qed.
Print Assumptions C71_ranks.

(** No file of another snapshot is read, as long as its number has no more digits. *)
Theorem C71_number : forall k has_bigfile comm n d files f word own m rest,
  factory k has_bigfile comm n = Hdf5 d files -> In f files ->
  word = "snap_" \/ word = "snapshot_" -> f = (word ++ own ++ "." ++ rest)%string -> numeral own m ->
  (forall num, numeral num n -> String.length own <= String.length num) -> m = n.
Proof. exact C71_number_aux. Qed.
Print Assumptions C71_number.

(** The condition is needed: snapshot 1000 is read together with, and its header instead of, that of
    snapshot 100; and so for every number from 100. *)
Theorem C71_number_refuted : forall n d num c, 100 <= n -> numeral num n -> is_digit c d ->
  numeral (num ++ String c "")%string (10 * n + d) /\
  let own := ("snap_" ++ num ++ ".hdf5")%string in
  let other := ("snap_" ++ (num ++ String c "") ++ ".hdf5")%string in
  factory (two_snapshots own other) false None n = Hdf5 "" [other; own].
Proof. exact C71_number_refuted_aux. Qed.
Print Assumptions C71_number_refuted.

Example C71_number_example :
  factory (two_snapshots "snap_100.hdf5" "snap_1003.hdf5") false None 100 = Hdf5 "" ["snap_1003.hdf5"; "snap_100.hdf5"] /\
  factory (two_snapshots "snap_100.hdf5" "snap_010.hdf5") false None 10 = Hdf5 "" ["snap_010.hdf5"] /\
  numeral "010" 10 /\ numeral "1003" 1003.
Proof.
  split; [reflexivity|]. split; [reflexivity|].
  split; [exact (snap_numeral 10)|].
  apply (numeral_snoc "100" 100 "3" 3); [lia|exact (snap_numeral 100)|split; [lia|reflexivity]].
Qed.

(** Files that carry the names but are not HDF5: IndexError, even if there is a BigFile snapshot. *)
Theorem C71_foreign_refuted : forall k has_bigfile n d l f, home k n d l -> member l n f ->
  (forall f, ~ member l n (f, true)) -> factory k has_bigfile None n = IndexErr.
Proof. exact C71_foreign_aux. Qed.
Print Assumptions C71_foreign_refuted.

Example C71_foreign_example :
  factory (mkDisk (fun d => if String.eqb d "" then Some [("snap_003.hdf5", false)] else
                            if String.eqb d "PART_003" then Some [] else None) (fun _ => GoodBig)) true None 3 = IndexErr.
Proof. reflexivity. Qed.

(** A snapshot in its own directory opens without a communicator and does not open with one. *)
Theorem C71_directory_refuted : forall k has_bigfile n num l f r size, numeral num n ->
  listing k ("snapdir_" ++ num)%string = Some l -> NoDup (map fst l) -> member l n (f, true) ->
  (forall l0 g, listing k "" = Some l0 -> ~ member l0 n g) ->
  (exists files, factory k has_bigfile None n = Hdf5 ("snapdir_" ++ num)%string files /\ In f files) /\
  (forall d files, factory k has_bigfile (Some (r, size)) n <> Hdf5 d files).
Proof. exact C71_mpi_aux. Qed.
Print Assumptions C71_directory_refuted.

Example C71_directory_example :
  let k := mkDisk (fun d => if String.eqb d "snapdir_003" then Some [("snap_003.hdf5", true)] else Some []) (fun _ => NoBig) in
  factory k true None 3 = Hdf5 "snapdir_003" ["snap_003.hdf5"] /\ factory k true (Some (0, 1)) 3 = IOErr.
Proof. split; reflexivity. Qed.

(** Under either name of a block the two formats give the same data. *)
Theorem C71_names : forall A (fs : list (string -> option (list A))) bf npart size rank chunk x segment,
  same_snapshot fs bf -> (segment < 0)%Z ->
  hdf_get_data fs x segment = big_get_data bf npart size rank chunk x segment.
Proof. exact C71_names_aux. Qed.
Print Assumptions C71_names.

Example C71_names_example :
  let f (v : list nat) x := if String.eqb x "Masses" then Some v else if String.eqb x "Density" then Some [9] else None in
  let b x := if String.eqb x "Mass" then Some [1; 2; 3] else if String.eqb x "Density" then Some [9; 9] else None in
  map (fun x => hdf_get_data [f [1; 2]; f [3]] x (-1)) ["Mass"; "Masses"; "Density"; "Volume"]
  = [Some [1; 2; 3]; Some [1; 2; 3]; Some [9; 9]; None] /\
  map (fun x => big_get_data b 3 1 0 10 x (-1)) ["Mass"; "Masses"; "Density"; "Volume"]
  = [Some [1; 2; 3]; Some [1; 2; 3]; Some [9; 9]; None].
Proof. split; reflexivity. Qed.

(** An HDF5 snapshot that has a block under the BigFile name cannot be read under it. *)
Theorem C71_shadow_refuted : forall A (f : string -> option (list A)) h b d, twin h b -> f b = Some d -> f h = None ->
  hdf_get_data [f] b 0 = None.
Proof. exact C71_shadow_aux. Qed.
Print Assumptions C71_shadow_refuted.

Example C71_shadow_example :
  hdf_get_data [fun x => if String.eqb x "Metallicity" then Some [5] else None] "Metallicity" 0 = None.
Proof. reflexivity. Qed.

(** The length of a block is the length of what get_data returns: for every file of an HDF5 snapshot... *)
Theorem C71_length_hdf : forall A (fs : list (string -> option (list A))) x s, (0 <= s)%Z ->
  hdf_get_blocklen fs x s = option_map (fun d => Z.of_nat (length d)) (hdf_get_data fs x s).
Proof. exact C71_length_hdf_aux. Qed.
Print Assumptions C71_length_hdf.

(** ...and for every segment of a block of a BigFile snapshot, on every rank. *)
Theorem C71_length_big : forall A (bf : string -> option (list A)) npart size rank chunk x s b,
  (0 < size)%Z -> (0 <= rank < size)%Z -> (0 < chunk)%Z -> (s < n_segments npart size rank chunk)%Z ->
  bf (big_name x) = Some b -> Z.of_nat (length b) = npart ->
  big_get_blocklen bf npart size rank chunk x s =
  option_map (fun d => Z.of_nat (length d)) (big_get_data bf npart size rank chunk x s).
Proof. exact C71_length_big_aux. Qed.
Print Assumptions C71_length_big.

Example C71_length_example :
  let bf := fun x => if String.eqb x "Mass" then Some (repeat 1 25) else None in
  map (fun s => big_get_blocklen bf 25 2 1 5 "Masses" s) [-1; 0; 1]%Z = [Some 25; Some 6; Some 6]%Z.
Proof. reflexivity. Qed.

(** But not for the whole of an HDF5 snapshot of several files, and not for a missing block of a BigFile
    snapshot. *)
Theorem C71_length_refuted :
  (forall A (f g : string -> option (list A)) x d e, f (hdf_name x) = Some d -> g (hdf_name x) = Some e -> d <> [] ->
     exists all, hdf_get_data [f; g] x (-1) = Some all /\ all = d ++ e /\
       hdf_get_blocklen [f; g] x (-1) = Some (Z.of_nat (length e)) /\ length e <> length all) /\
  (forall A (bf : string -> option (list A)) npart size rank chunk x s, (0 <= s)%Z -> bf (big_name x) = None ->
     big_get_data bf npart size rank chunk x s = None /\
     big_get_blocklen bf npart size rank chunk x s <> None).
Proof. exact C71_length_refuted_aux. Qed.
Print Assumptions C71_length_refuted.
