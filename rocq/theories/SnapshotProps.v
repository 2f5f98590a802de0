(** Properties C31-C33: files, segments and handles of a snapshot. *)
From Coq Require Import ZArith List Bool Arith Lia Permutation.
From Verif Require Import SnapshotModel SnapshotSpec SnapshotProofs.
Import ListNotations.
Local Open Scope Z_scope.

(** ** C31 *)

(** Every file that is an HDF5 file is read by exactly one rank: the lists of all ranks
    together are a rearrangement of the file list.  No rank fails while listing files. *)
Theorem C31_files_partitioned : forall A (is_hdf5 : A -> bool) (fnames : list A) size,
  (0 < size)%nat ->
  exists shares, length shares = size /\
    (forall r, (r < size)%nat -> rank_files is_hdf5 fnames size r = nth_error shares r) /\
    Permutation (concat shares) (filter is_hdf5 fnames).
Proof. exact C31_partition_aux. Qed.
Print Assumptions C31_files_partitioned.

(** The number of files differs by at most one between ranks. *)
Theorem C31_balanced : forall A (fnames : list A) size r r' a b, (0 < size)%nat ->
  (r < size)%nat -> (r' < size)%nat ->
  rank_files (fun _ => true) fnames size r = Some a ->
  rank_files (fun _ => true) fnames size r' = Some b -> (length a <= S (length b))%nat.
Proof. exact C31_balance_aux. Qed.
Print Assumptions C31_balanced.

Example C31_example :
  map (rank_files (fun _ => true) [10; 11; 12; 13; 14; 15; 16; 17; 18; 19; 20] 4) [0; 1; 2; 3]%nat =
  [Some [10; 11]; Some [12; 13; 18]; Some [14; 15; 19]; Some [16; 17; 20]].
Proof. reflexivity. Qed.

(** With fewer files than ranks rank 0 gets no file and the constructor raises. *)
Theorem C31_few_files_refuted : forall A (is_hdf5 : A -> bool) (fnames : list A) size reorder,
  (forall l : list A, Permutation (reorder l) l) -> (length fnames < size)%nat ->
  exists fs, rank_files is_hdf5 fnames size 0 = Some fs /\ fs = [] /\ hdf5_init reorder fs = None.
Proof. exact C31_starved_aux. Qed.
Print Assumptions C31_few_files_refuted.

Example C31_few_files_example :
  map (rank_files (fun _ => true) [10; 11] 3) [0; 1; 2]%nat = [Some []; Some [10]; Some [11]].
Proof. reflexivity. Qed.

(** ** C32 *)

(** The block is cut into one contiguous share per rank, in rank order and without gaps;
    each rank reads a prefix of its share and leaves unread exactly the remainder of its
    particle number modulo its number of segments. *)
Theorem C32_rank_shares : forall A (block : list A) size chunk, 0 < size -> 0 < chunk ->
  let N := Z.of_nat (length block) in
  exists shares, Z.of_nat (length shares) = size /\ concat shares = block /\
    forall r share, nth_error shares r = Some share -> exists unread,
      share = bigfile_rank_reads block N size (Z.of_nat r) chunk ++ unread /\
      Z.of_nat (length share) = fair_share N size (Z.of_nat r) /\
      Z.of_nat (length unread) =
        fair_share N size (Z.of_nat r) mod pieces (fair_share N size (Z.of_nat r)) chunk.
Proof. exact C32_rank_shares_aux. Qed.
Print Assumptions C32_rank_shares.

(** All particles are read if and only if the number of segments divides the number of
    particles on every rank. *)
Theorem C32_complete_iff : forall A (block : list A) size chunk, 0 < size -> 0 < chunk ->
  (bigfile_all_reads block size chunk = block <->
   forall r, 0 <= r < size ->
     (pieces (fair_share (Z.of_nat (length block)) size r) chunk |
      fair_share (Z.of_nat (length block)) size r)).
Proof. exact C32_complete_aux. Qed.
Print Assumptions C32_complete_iff.

(** 11 particles, 2 ranks, segments of about 2: particle 6 -> the shares are 0..5 and 6..10,
    cut in 3 and 2 segments, so particle 10 is lost. *)
Example C32_example :
  bigfile_all_reads [0; 1; 2; 3; 4; 5; 6; 7; 8; 9; 10] 2 2 = [0; 1; 2; 3; 4; 5; 6; 7; 8; 9] /\
  bigfile_all_reads [0; 1; 2; 3; 4; 5; 6; 7; 8] 3 2 = [0; 1; 2; 3; 4; 5; 6; 7; 8].
Proof. split; reflexivity. Qed.

(** With the default segment size a snapshot of 2*256^3 + 1 particles loses one particle on a
    single rank. *)
Theorem C32_default_chunk_refuted : forall A (block : list A),
  Z.of_nat (length block) = 2 * 256 ^ 3 + 1 ->
  bigfile_all_reads block 1 (256 ^ 3) <> block /\
  Z.of_nat (length (bigfile_all_reads block 1 (256 ^ 3))) = 2 * 256 ^ 3.
Proof. exact C32_default_aux. Qed.
Print Assumptions C32_default_chunk_refuted.

(** ** C33 *)

(** Whatever happened before (including failed opens and bad segments), data that is returned
    comes from the file of the requested segment, or from all files in order for get_data
    with a negative segment. *)
Theorem C33_right_file : forall E n (files : nat -> option (list E)) ops, (0 < n)%nat ->
  Forall2 (fun o r => forall d, r = Data d -> wanted n files o d)
    ops (snd (hrun n files h_init ops)).
Proof. exact C33_right_file_aux. Qed.
Print Assumptions C33_right_file.

(** When segments are valid and files open, every call of every history succeeds. *)
Theorem C33_no_spurious_error : forall E n (files : nat -> option (list E)) ops, (0 < n)%nat ->
  Forall (good_call n files) ops ->
  Forall2 (fun o r => exists d, r = Data d /\ wanted n files o d)
    ops (snd (hrun n files h_init ops)).
Proof. exact C33_total_aux. Qed.
Print Assumptions C33_no_spurious_error.

Example C33_example :
  let files := fun i : nat => Some [Z.of_nat i; 7] in
  let ok := fun _ : nat => true in
  let ops := [GetData 2 ok; GetData 2 ok; GetBlocklen 0 ok; GetData (-1) ok; GetBlocklen (-1) ok] in
  Forall (good_call 3 files) ops /\
  snd (hrun 3 files h_init ops) =
    [Data [2; 7]; Data [2; 7]; Data [0; 7]; Data [0; 7; 1; 7; 2; 7]; Data [2; 7]].
Proof.
  split; [|reflexivity]. repeat constructor; simpl; intros; try congruence; lia.
Qed.

(** After one failed call the handle is closed but still believed to be the previous
    segment: valid reads of that segment fail, repeatedly, although nothing is wrong with the
    file. *)
Theorem C33_after_failure_refuted : forall E n (files : nat -> option (list E)) bad,
  (0 < n)%nat -> bad <> 0 -> (forall i, files i <> None) ->
  exists ok ops, Forall (good_call n files) (skipn 1 ops) /\
    ops = [GetBlocklen bad (fun _ => false); GetData 0 ok; GetData 0 ok] /\
    exists e, snd (hrun n files h_init ops) = [e; ClosedError; ClosedError].
Proof. exact C33_stale_aux. Qed.
Print Assumptions C33_after_failure_refuted.
