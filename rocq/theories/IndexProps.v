(** Properties C01-C04: the particle search. *)
From Coq Require Import ZArith List Bool Lia Sorting.Sorted Permutation.
From Verif Require Import Containers ContainersProofs IndexModel IndexSpec IndexProofs.
Import ListNotations.
Open Scope Z_scope.

(** ** C01 *)

(** The search reports every sightline strictly inside the smoothing length, with its true
    periodic squared distance, reports nothing further than the smoothing length, and
    reports each sightline at most once (in increasing order). *)
Theorem C01_search_exact : forall L ls p,
  0 < p_h p -> 2 * p_h p < L -> good_particle L p -> Forall (good_line L) ls ->
  exists m, get_near_lines L ls p = Some m /\
    StronglySorted Z.lt (map fst m) /\
    (forall i d, In (i, d) m ->
       exists n l, i = Z.of_nat n /\ nth_error ls n = Some l /\
         transverse_distance2 L p l d /\ d <= p_h p * p_h p) /\
    (forall n l d, nth_error ls n = Some l -> transverse_distance2 L p l d ->
       d < p_h p * p_h p -> In (Z.of_nat n, d) m).
Proof. exact C01_aux. Qed.
Print Assumptions C01_search_exact.

(** A particle near the corner of the box sees one line along each axis, two of them only
    through the periodic boundary, and not the far one. *)
Example C01_example :
  let ls := [mkLine 1 0 98 99; mkLine 2 3 0 1; mkLine 3 97 98 50; mkLine 3 50 50 0] in
  let p := mkPart 1 2 1 10 in
  0 < p_h p /\ 2 * p_h p < 100 /\ good_particle 100 p /\ Forall (good_line 100) ls /\
  get_near_lines 100 ls p = Some [(0, 20); (1, 4); (2, 32)].
Proof.
  cbn zeta. unfold good_particle, good_line, inside; simpl.
  repeat split; try lia; try reflexivity.
  repeat (apply Forall_cons || apply Forall_nil); simpl; repeat split; lia.
Qed.

(** ** C02 *)

(** Whatever the smoothing length, only sightlines within it are reported, with the right
    distance, and the scan never runs past the end of the table. *)
Theorem C02_search_sound : forall L ls p,
  0 < L -> good_particle L p -> Forall (good_line L) ls ->
  exists m, get_near_lines L ls p = Some m /\
    (forall i d, In (i, d) m ->
       exists n l, i = Z.of_nat n /\ nth_error ls n = Some l /\
         transverse_distance2 L p l d /\ d <= p_h p * p_h p).
Proof. exact C02_sound_aux. Qed.
Print Assumptions C02_search_sound.

Example C02_search_sound_example :
  0 < 10 /\ good_particle 10 (mkPart 5 5 5 8) /\ Forall (good_line 10) [mkLine 3 1 5 0] /\
  get_near_lines 10 [mkLine 3 1 5 0] (mkPart 5 5 5 8) = Some [(0, 16)].
Proof.
  unfold good_particle, good_line, inside; simpl.
  repeat split; try lia; try reflexivity. repeat (apply Forall_cons || apply Forall_nil); simpl; repeat split; lia.
Qed.

(** The guard 2h < L of C01 is needed, already at 2h = L: a particle sitting exactly on a
    sightline (distance 0) is not found, whatever the (even) box size and wherever the
    particle is in the lower half of the box. *)
Theorem C02_large_smoothing_refuted : forall L first,
  0 < first -> 2 * first < L -> Z.even L = true ->
  exists ls p, p_x p = first /\ L <= 2 * p_h p /\ p_h p <= L /\
    good_particle L p /\ Forall (good_line L) ls /\
    (exists l, nth_error ls 0 = Some l /\ transverse_distance2 L p l 0) /\
    get_near_lines L ls p = Some [].
Proof. exact C02_refuted_aux. Qed.
Print Assumptions C02_large_smoothing_refuted.

Example C02_refuted_example :
  get_near_lines 10 [mkLine 3 2 2 0] (mkPart 2 2 0 5) = Some [] /\
  get_near_lines 10 [mkLine 3 5 5 0] (mkPart 5 5 0 6) = Some [].
Proof. split; reflexivity. Qed.

(** ** C03 *)

(** Any two thread schedules give the same list. *)
Theorem C03_schedule_independent : forall L ls ps order order',
  Permutation order (seq 0 (length ps)) -> Permutation order' (seq 0 (length ps)) ->
  py_near_lines L ls ps order = py_near_lines L ls ps order'.
Proof. exact C03_aux. Qed.
Print Assumptions C03_schedule_independent.

(** The list is strictly increasing, contains every particle strictly inside the smoothing
    length of a sightline, and only particles within the smoothing length of one. *)
Theorem C03_near_lines_exact : forall L ls ps order,
  Permutation order (seq 0 (length ps)) -> Z.of_nat (length ps) <= 2 ^ 31 ->
  Forall (fun p => 0 < p_h p /\ 2 * p_h p < L /\ good_particle L p) ps ->
  Forall (good_line L) ls ->
  exists s, py_near_lines L ls ps order = Some s /\ StronglySorted Z.lt s /\
    (forall k, In k s -> exists i p l d, k = Z.of_nat i /\ nth_error ps i = Some p /\
       In l ls /\ transverse_distance2 L p l d /\ d <= p_h p * p_h p) /\
    (forall i p, nth_error ps i = Some p -> near_some_line L ls p -> In (Z.of_nat i) s).
Proof. exact C03_content_aux. Qed.
Print Assumptions C03_near_lines_exact.

Example C03_example :
  let ls := [mkLine 1 0 98 99; mkLine 3 50 50 0] in
  let ps := [mkPart 1 2 1 10; mkPart 20 20 20 5; mkPart 49 51 7 3; mkPart 30 92 92 20] in
  Permutation [2; 0; 3; 1]%nat (seq 0 (length ps)) /\
  Forall (fun p => 0 < p_h p /\ 2 * p_h p < 100 /\ good_particle 100 p) ps /\
  Forall (good_line 100) ls /\
  py_near_lines 100 ls ps [2; 0; 3; 1]%nat = Some [0; 2; 3].
Proof.
  cbn zeta. split; [|split; [|split]].
  - simpl. apply (Permutation_trans (l' := [0; 2; 3; 1]%nat)); [apply perm_swap|].
    apply perm_skip. apply (Permutation_trans (l' := [2; 1; 3]%nat)).
    + apply perm_skip, perm_swap.
    + apply perm_swap.
  - unfold good_particle, inside. repeat (apply Forall_cons || apply Forall_nil); simpl; repeat split; lia.
  - unfold good_line, inside. repeat (apply Forall_cons || apply Forall_nil); simpl; repeat split; lia.
  - reflexivity.
Qed.

(** The bound on the number of particles is needed: the counter is stored in a 32 bit
    integer, and a particle number of 2^31 or more is lost from the list (its index comes
    out negative). *)
Theorem C03_many_particles_refuted :
  exists L ls ps i p, nth_error ps i = Some p /\ 0 < p_h p /\ 2 * p_h p < L /\
    good_particle L p /\ Forall (good_line L) ls /\ near_some_line L ls p /\
    (forall order s, Permutation order (seq 0 (length ps)) ->
       py_near_lines L ls ps order = Some s -> ~ In (Z.of_nat i) s).
Proof. exact C03_overflow_aux. Qed.
Print Assumptions C03_many_particles_refuted.

(** ** C04 *)

(** Any two thread schedules give the same per-sightline lists. *)
Theorem C04_schedule_independent : forall L ls ps order order',
  Z.of_nat (length ps) <= 2 ^ 31 ->
  Permutation order (seq 0 (length ps)) -> Permutation order' (seq 0 (length ps)) ->
  get_near_particles L ls ps order = get_near_particles L ls ps order'.
Proof. exact C04_aux. Qed.
Print Assumptions C04_schedule_independent.

(** For each sightline: its particles in increasing order, each once, with true periodic
    distances, all those strictly inside their smoothing length and none beyond it. *)
Theorem C04_near_particles_exact : forall L ls ps order,
  Permutation order (seq 0 (length ps)) -> Z.of_nat (length ps) <= 2 ^ 31 ->
  Forall (fun p => 0 < p_h p /\ 2 * p_h p < L /\ good_particle L p) ps ->
  Forall (good_line L) ls ->
  exists lists, get_near_particles L ls ps order = Some lists /\ length lists = length ls /\
    forall n l, nth_error ls n = Some l ->
    exists m, nth_error lists n = Some m /\ StronglySorted Z.lt (map fst m) /\
      (forall k d, In (k, d) m -> exists i p, k = Z.of_nat i /\ nth_error ps i = Some p /\
         transverse_distance2 L p l d /\ d <= p_h p * p_h p) /\
      (forall i p d, nth_error ps i = Some p -> transverse_distance2 L p l d ->
         d < p_h p * p_h p -> In (Z.of_nat i, d) m).
Proof. exact C04_content_aux. Qed.
Print Assumptions C04_near_particles_exact.

Example C04_example :
  let ls := [mkLine 1 0 98 99; mkLine 3 50 50 0] in
  let ps := [mkPart 1 2 1 10; mkPart 20 20 20 5; mkPart 49 51 7 3; mkPart 30 92 92 20] in
  get_near_particles 100 ls ps [2; 0; 3; 1]%nat = Some [[(0, 20); (3, 85)]; [(2, 2)]].
Proof. reflexivity. Qed.
