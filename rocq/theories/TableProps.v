(** C17: error reporting of the two-dimensional table interpolation.

    A call is a run of the loop: the loop indices are given out to threads, [sched] says whose memory
    access is next, and the answer is read when no thread has anything left to do. *)
From Coq Require Import List Arith Lia Permutation.
From Verif Require Import TableModel TableProofs.
Import ListNotations.

(** C17, one thread: the call raises exactly when some particle is out of range. *)
Theorem C17_sequential : forall V eval junk (zero : V) n order sched, Permutation order (seq 0 n) ->
  finished (run eval junk sched (start zero n [order])) ->
  (answer (run eval junk sched (start zero n [order])) = None <-> exists i, i < n /\ eval i = None).
Proof. exact C17_sequential_aux. Qed.
Print Assumptions C17_sequential.

(** Any number of threads and any interleaving: with every particle in range the call returns the
    interpolated values. *)
Theorem C17_in_range : forall V eval junk (zero : V) n parts sched, Permutation (concat parts) (seq 0 n) ->
  (forall i, i < n -> eval i <> None) ->
  finished (run eval junk sched (start zero n parts)) ->
  exists out, answer (run eval junk sched (start zero n parts)) = Some out /\
    length out = n /\ forall i, i < n -> nth_error out i = eval i.
Proof. exact C17_in_range_aux. Qed.
Print Assumptions C17_in_range.

(** Any number of threads and any interleaving: an exception means that a particle is out of range. *)
Theorem C17_no_false_alarm : forall V eval junk (zero : V) n parts sched, Permutation (concat parts) (seq 0 n) ->
  finished (run eval junk sched (start zero n parts)) ->
  answer (run eval junk sched (start zero n parts)) = None -> exists i, i < n /\ eval i = None.
Proof. exact C17_no_false_alarm_aux. Qed.
Print Assumptions C17_no_false_alarm.

(** From any state the loop can be run to its end. *)
Theorem C17_can_finish : forall V eval junk (st : state V), exists sched, finished (run eval junk sched st).
Proof. exact C17_can_finish_aux. Qed.
Print Assumptions C17_can_finish.

(** Two threads, one of which meets a particle out of range while the other has only particles in
    range: there is always an interleaving in which the call returns normally, with zero for every
    particle after the one out of range. *)
Theorem C17_race_refuted : forall V eval junk (zero : V) n pre bad post part1 last,
  Permutation ((pre ++ bad :: post) ++ part1 ++ [last]) (seq 0 n) ->
  (forall i, In i (pre ++ part1 ++ [last]) -> eval i <> None) -> eval bad = None ->
  exists sched out, finished (run eval junk sched (start zero n [pre ++ bad :: post; part1 ++ [last]])) /\
    answer (run eval junk sched (start zero n [pre ++ bad :: post; part1 ++ [last]])) = Some out /\ length out = n /\
    forall j, In j post -> nth_error out j = Some zero.
Proof. exact C17_race_aux. Qed.
Print Assumptions C17_race_refuted.

(** Four particles, the first out of range. *)
Definition four (i : nat) : option nat := if Nat.eqb i 0 then None else Some (10 + i).

Example C17_example_sequential :
  let st := run four (fun _ => 77) (repeat 0 16) (start 0 4 [[0; 1; 2; 3]]) in finished st /\ answer st = None.
Proof. split; [repeat constructor|reflexivity]. Qed.

Example C17_example_race :
  let st := run four (fun _ => 77) [1;1;1;1; 1; 0;0;0;0;0; 1;1;1] (start 0 4 [[0; 1]; [2; 3]]) in
  finished st /\ answer st = Some [77; 0; 12; 13].
Proof. split; [repeat constructor|reflexivity]. Qed.
