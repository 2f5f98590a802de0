(** Properties C47 and C50: the command line extractor. *)
From Coq Require Import Ascii String.
From Coq Require Import Reals List Bool ZArith Arith Lia Lra.
From Verif Require Import ExtractModel ExtractSpec ExtractProofs ExtractProofs2.
Import ListNotations.
Local Open Scope nat_scope.

(** C47.  Of a set of [n] files the extractor never reads file 0, nor any of the
    files 11 to 109; it reads files 1 to 10, and for at most 110 files nothing
    else. *)
Theorem C47_files_refuted : forall disk base indir n fuel,
  file_set disk base n -> plain base -> names_set disk base indir -> 0 < n <= fuel ->
  exists read, extract disk indir fuel = Finished (map (member base) read) /\
    ~ In 0 read /\
    (forall k, 11 <= k < 110 -> ~ In k read) /\
    (forall k, 1 <= k <= 10 -> k < n -> In k read) /\
    (n <= 110 -> read = seq 1 (Nat.min (n - 1) 10)).
Proof. exact C47_files_aux. Qed.
Print Assumptions C47_files_refuted.

(** A single HDF5 file, whose name does not contain ".0.hdf5", is never read as
    HDF5: it is passed to the Gadget reader. *)
Theorem C47_single_refuted : forall disk indir fuel,
  hdf5_file (disk indir) -> (forall a b, indir <> a ++ zero_suffix ++ b) ->
  extract disk indir fuel = Gadget.
Proof. exact C47_single_aux. Qed.
Print Assumptions C47_single_refuted.

(** "Skipping over broken files": a file without a header is not skipped but
    leads to a free of memory that was never allocated. *)
Theorem C47_broken_refuted : forall disk base indir fuel k,
  plain base -> names_set disk base indir -> 1 <= k <= 10 -> k <= fuel ->
  (forall j, j < k -> exists p, disk (member base j) = Hdf5 p) ->
  disk (member base k) = NoHeader ->
  extract disk indir fuel = Crash (map (member base) (seq 1 (k - 1))).
Proof. exact C47_broken_aux. Qed.
Print Assumptions C47_broken_refuted.

(** Files of the set without gas particles are passed over: of at most ten files those from file 1 on with gas are read. *)
Theorem C47_no_gas : forall disk base indir n fuel, plain base -> names_set disk base indir -> 0 < n <= 10 -> n <= fuel ->
  (exists p, disk (member base 0) = Hdf5 p) ->
  (forall j, j < n -> disk (member base j) = NoGroup \/ exists p, disk (member base j) = Hdf5 p) -> disk (member base n) = Missing ->
  exists read, extract disk indir fuel = Finished (map (member base) read) /\
    forall k, In k read <-> 1 <= k < n /\ exists p, disk (member base k) = Hdf5 p.
Proof. exact C47_no_gas_aux. Qed.
Print Assumptions C47_no_gas.

(** C50.  A table file is accepted exactly if it has enough lines and each line
    used has an axis from 0 to 3 and lies in the box. *)
Theorem C50_table : forall lines u box n fuel out,
  populate_los_table (Some lines) u box n fuel = Some out <->
  n <= length lines /\ Forall (fits box) (firstn n lines) /\ out = map scaled (firstn n lines).
Proof. exact C50_table_aux. Qed.
Print Assumptions C50_table.

Theorem C50_table_inside : forall lines u box n fuel out,
  populate_los_table (Some lines) u box n fuel = Some out ->
  length out = n /\ Forall (fun l => inside box l /\ (0 <= l_axis l <= 3)%Z) out.
Proof. exact C50_table_inside_aux. Qed.
Print Assumptions C50_table_inside.

(** Random sightlines lie in the box along one of the three axes. *)
Theorem C50_random : forall u box n fuel out, (forall k, (0 <= u k < 1)%R) -> (0 <= box)%R ->
  populate_los_table None u box n fuel = Some out ->
  length out = n /\ Forall (fun l => real_axis l /\ inside box l) out.
Proof. exact C50_random_aux. Qed.
Print Assumptions C50_random.

(** Each number of the stream is used for one coordinate of one sightline at most, in order; axes have equal parts of the numbers. *)
Theorem C50_stream : forall u box n fuel out, (forall k, (0 <= u k < 1)%R) -> populate_los_table None u box n fuel = Some out ->
  drawn_from u box 0 out /\ length out = n.
Proof. exact C50_stream_aux. Qed.
Print Assumptions C50_stream.

(** The drawing ends if among [w] consecutive random numbers there is always one
    of at least 1/4. *)
Theorem C50_random_ends : forall u box w, (forall k, (0 <= u k < 1)%R) ->
  (forall pos, exists j, j < w /\ (1 / 4 <= u (pos + j)%nat)%R) ->
  forall n, exists out, populate_los_table None u box n w = Some out.
Proof. exact C50_random_ends_aux. Qed.
Print Assumptions C50_random_ends.

(** An axis 0 in the table file is accepted although it is no direction. *)
Theorem C50_axis_refuted : exists lines u box n fuel out,
  populate_los_table (Some lines) u box n fuel = Some out /\ ~ Forall real_axis out.
Proof.
  exists [Sightline 0 1 1 1], (fun _ => 0%R), 10000%R, 1, 0, [scaled (Sightline 0 1 1 1)].
  split.
  - apply C50_table. split; [cbn; lia|]. split; [|reflexivity]. cbn [firstn]. constructor; auto.
    unfold fits. cbn [l_axis l_x l_y l_z]. split; [lia|]. lra.
  - intros F. inversion F as [|? ? A]; subst. unfold real_axis in A. cbn in A. lia.
Qed.
Print Assumptions C50_axis_refuted.

(** ** The hypotheses are met *)

Definition snap : name := list_ascii_of_string "snap".
(** Thirteen files and nothing else. *)
Definition disk13 : name -> file := fun s =>
  if existsb (fun k => if list_eq_dec ascii_dec s (member snap k) then true else false) (seq 0 13)
  then Hdf5 100 else Missing.

Example snap_names : names_set disk13 snap snap.
Proof.
  assert (E : disk13 snap = Missing) by (vm_compute; reflexivity). left. split; [reflexivity|]. rewrite E. intros (A & _). congruence.
Qed.

Example snap_set : file_set disk13 snap 13.
Proof.
  split.
  - intros k K. exists 100. do 13 (destruct k as [|k]; [vm_compute; reflexivity|]). lia.
  - intros k K. unfold disk13.
    destruct (existsb _ (seq 0 13)) eqn:E; auto. apply existsb_exists in E as (j & J & E).
    destruct (list_eq_dec ascii_dec (member snap k) (member snap j)) as [H | H]; [|discriminate].
    apply member_inj in H. apply in_seq in J. lia.
Qed.

Example snap_plain : plain snap.
Proof.
  intros a b H. unfold snap, zero_suffix in H. cbn [list_ascii_of_string app] in H.
  do 4 (destruct a as [|? a]; [cbn in H; injection H; intros; discriminate | injection H as _ H]).
  destruct a as [|? a].
  - cbn in H. injection H as H. auto.
  - exfalso. apply (f_equal (@length ascii)) in H. cbn [app length] in H. rewrite app_length in H.
    cbn [app length] in H. lia.
Qed.

(** Exactly the files 1 to 10 of the thirteen are read. *)
Example thirteen : extract disk13 snap 50 = Finished (map (member snap) (seq 1 10)).
Proof. vm_compute. reflexivity. Qed.

(** A stream that always ends the drawing. *)
Example half_stream : (forall k : nat, (0 <= (fun _ => 1 / 2) k < 1)%R) /\
  (forall pos, exists j, j < 1 /\ (1 / 4 <= (fun _ => 1 / 2) (pos + j)%nat)%R).
Proof. split; [intros; lra|]. intros. exists 0. split; [lia|lra]. Qed.

(** Three files, the second without gas: only the third is read. *)
Definition disk_gap : name -> file := fun s =>
  if list_eq_dec ascii_dec s (member snap 0) then Hdf5 5 else if list_eq_dec ascii_dec s (member snap 1) then NoGroup
  else if list_eq_dec ascii_dec s (member snap 2) then Hdf5 7 else Missing.
Example gap_met : names_set disk_gap snap snap /\ (forall j, j < 3 -> disk_gap (member snap j) = NoGroup \/ exists p, disk_gap (member snap j) = Hdf5 p) /\
  disk_gap (member snap 3) = Missing /\ extract disk_gap snap 9 = Finished [member snap 2].
Proof.
  assert (E : disk_gap snap = Missing) by (vm_compute; reflexivity).
  split; [left; split; [reflexivity|rewrite E; intros (A & _); congruence]|]. split; [|split; vm_compute; reflexivity].
  intros j J. destruct j as [|[|[|j]]]; [right; exists 5|left|right; exists 7|lia]; vm_compute; reflexivity.
Qed.
