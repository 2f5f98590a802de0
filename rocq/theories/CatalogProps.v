(** Property C76: the arrays of a halo catalogue split over files. *)
From Coq Require Import Ascii String List Bool Arith Lia Permutation.
From Verif Require Import OpenModel CatalogModel CatalogSpec CatalogProofs.
Import ListNotations.
Local Open Scope string_scope.

(** A catalogue of at most ten parts, listed by the file system in any order among other files, gives every array as the rows
    of parts 0, 1, 2, ..., so that group number [k] of the simulation is row [k]; if that is not as many rows as the header
    says, it fails.  The array is one of integers exactly if every part has it, as integers. *)
Theorem C76_parts : forall (row : Type) n m (content : nat -> file row) listing sizes, holds n m content listing ->
  1 <= m <= 10 -> f_good (content 0) = true -> f_header (content 0) = Some sizes ->
  f_group (content 0) <> None -> f_sub (content 0) <> None ->
  exists s, open_cat listing n = Ok s /\ forall d name c0, dataset (content 0) d name = Some c0 ->
    uniform (map content (seq 0 m)) d name (c_width c0) ->
    let total := match d with Group => fst sizes | Subhalo => snd sizes end in
    let data := concat (map (fun i => rows_of (content i) d name) (seq 0 m)) in
    (length data = total -> exists c, read_array s d name = Ok c /\ c_rows c = data /\ c_width c = c_width c0 /\
       (c_int c = true <-> all_integer (map content (seq 0 m)) d name)) /\
    (length data <> total -> read_array s d name = AssertionError).
Proof. exact @C76_parts_aux. Qed.
Print Assumptions C76_parts.

(** With any number of files, an array that is returned has as many rows as the header says. *)
Theorem C76_complete : forall (row : Type) (s : subfind row) d name c, read_array s d name = Ok c ->
  length (c_rows c) = match d with Group => fst (s_sizes s) | Subhalo => snd (s_sizes s) end.
Proof. exact @C76_complete_aux. Qed.
Print Assumptions C76_complete.

(** With any number of files, row [k] of two arrays comes from the same place of the same file, so it describes one object. *)
Theorem C76_aligned : forall (row : Type) (s : subfind row) d x y cx cy (cnt : file row -> nat),
  read_array s d x = Ok cx -> read_array s d y = Ok cy ->
  (exists w, uniform (s_files s) d x w) -> (exists w, uniform (s_files s) d y w) ->
  (forall f, In f (s_files s) -> length (rows_of f d x) = cnt f /\ length (rows_of f d y) = cnt f) ->
  length (c_rows cx) = length (c_rows cy) /\
  forall k v, (nth_error (c_rows cx) k = Some v <-> exists j i f, origin cnt (s_files s) k j i /\
     nth_error (s_files s) j = Some f /\ nth_error (rows_of f d x) i = Some v) /\
   (nth_error (c_rows cy) k = Some v <-> exists j i f, origin cnt (s_files s) k j i /\
     nth_error (s_files s) j = Some f /\ nth_error (rows_of f d y) i = Some v).
Proof. exact @C76_aligned_aux. Qed.
Print Assumptions C76_aligned.

(** Any sequence of requests on one object gets what each would get alone from the files. *)
Theorem C76_calls : forall (row : Type) (s : subfind row) calls,
  get_arrays s [] calls = map (fun p => read_array s (fst p) (snd p)) calls.
Proof. exact @C76_calls_aux. Qed.
Print Assumptions C76_calls.

(** load_halo succeeds exactly if the catalogue opens and all nine arrays can be read, and then it has those arrays. *)
Theorem C76_load : forall (row : Type) (listing : list (string * file row)) n cs, load_halo listing n = Loaded cs <->
  exists s, open_cat listing n = Ok s /\ map (fun p => read_array s (fst p) (snd p)) halo_arrays = map Ok cs.
Proof. exact @C76_load_aux. Qed.
Print Assumptions C76_load.

(** An unreadable file makes it carry on without halos, if the first file is intact and has GroupPos; otherwise it raises. *)
Theorem C76_unreadable : forall (row : Type) (listing : list (string * file row)) n s,
  open_cat listing n = Ok s ->
  (exists f, In f (s_files s) /\ f_good f = false) ->
  (load_halo listing n = Ignored <-> exists f0 c, nth_error (s_files s) 0 = Some f0 /\ dataset f0 Group "GroupPos" = Some c) /\
  (load_halo listing n <> Ignored -> load_halo listing n = Raised).
Proof. exact @C76_unreadable_aux. Qed.
Print Assumptions C76_unreadable.

(** The intention "no catalogue: carry on without halos" fails: if there is no file of the catalogue, an exception that
    load_halo does not catch ends it. *)
Theorem C76_none_refuted : forall (row : Type) (listing : list (string * file row)) n,
  (forall name f, In (name, f) listing -> forall mid, name <> "fof_subhalo_tab_" ++ snap n ++ mid ++ ".hdf5") ->
  load_halo listing n = Raised.
Proof. exact @C76_none_aux. Qed.
Print Assumptions C76_none_refuted.

(** With eleven parts, part 10 is read before part 2: row 2 of the group array is group 10. *)
Theorem C76_order_refuted : exists listing s grp, holds 0 11 (numbered_part 11) listing /\ open_cat listing 0 = Ok s /\
  read_array s Group "GroupFirstSub" = Ok grp /\ length (c_rows grp) = 11 /\
  nth_error (c_rows grp) 2 = Some 10 /\ nth_error (c_rows grp) 3 = Some 2.
Proof. exact C76_eleven_aux. Qed.
Print Assumptions C76_order_refuted.

(** A part without subhalos makes the parent numbers floats although every part that has them has integers. *)
Theorem C76_floats_refuted : exists (listing : list (string * file nat)) s c,
  holds 0 2 (fun i => if Nat.eqb i 0 then with_sub else without_sub) listing /\
  (forall name f c', In (name, f) listing -> dataset f Subhalo "SubhaloGrNr" = Some c' -> c_int c' = true) /\
  open_cat listing 0 = Ok s /\ read_array s Subhalo "SubhaloGrNr" = Ok c /\ c_int c = false.
Proof. exact C76_floats_aux. Qed.
Print Assumptions C76_floats_refuted.

(** A catalogue without any subhalo, as its header says, cannot be loaded. *)
Theorem C76_nosub_refuted : exists (listing : list (string * file nat)) s,
  holds 0 1 (fun i => mkFile true (Some (1, 0)) (Some (full_group i)) (Some [])) listing /\
  open_cat listing 0 = Ok s /\ snd (s_sizes s) = 0 /\ read_array s Subhalo "SubhaloPos" = TypeError /\
  load_halo listing 0 = Raised.
Proof. exact C76_nosub_aux. Qed.
Print Assumptions C76_nosub_refuted.

(** ** Non-vacuity *)

(** A catalogue of two parts in the wrong order beside another file, of which all nine arrays are loaded. *)
Definition two (i : nat) : file nat := mkFile true (Some (2, 2)) (Some (full_group i)) (Some (full_sub i)).

Example catalogue_case : let listing := [("readme", two 7); (part 5 1, two 1); (part 5 0, two 0)] in
  holds 5 2 two listing /\ f_good (two 0) = true /\ f_header (two 0) = Some (2, 2) /\
  dataset (two 0) Subhalo "SubhaloGrNr" = Some (mkCol true [] [0]) /\
  uniform (map two (seq 0 2)) Subhalo "SubhaloGrNr" [] /\ all_integer (map two (seq 0 2)) Subhalo "SubhaloGrNr" /\
  (exists cs, load_halo listing 5 = Loaded cs /\ length cs = 9 /\ forall c, In c cs -> c_rows c = [0; 1]).
Proof.
  intros listing. split.
  { exists [("readme", two 7)]. split.
    - change (Permutation listing [(part 5 0, two 0); (part 5 1, two 1); ("readme", two 7)]). unfold listing.
      apply Permutation_sym. apply (Permutation_rev [(part 5 0, two 0); (part 5 1, two 1); ("readme", two 7)]).
    - intros name f [H|[]] mid E. injection H as <- <-. discriminate E. }
  split; [reflexivity|]. split; [reflexivity|]. split; [reflexivity|]. split.
  { intros f [<-|[<-|[]]]; (split; [reflexivity|intros c H; vm_compute in H; injection H as <-; reflexivity]). }
  split.
  { intros f [<-|[<-|[]]]; [exists (mkCol true [] [0])|exists (mkCol true [] [1])]; split; reflexivity. }
  eexists. split; [vm_compute; reflexivity|]. split; [reflexivity|].
  intros c H. repeat (destruct H as [<-|H]; [reflexivity|]). destruct H.
Qed.

(** Damage to the second part: load_halo carries on without halos. *)
Example damaged_case : load_halo [(part 5 0, two 0); (part 5 1, mkFile false None None None)] 5 = Ignored.
Proof. vm_compute. reflexivity. Qed.
