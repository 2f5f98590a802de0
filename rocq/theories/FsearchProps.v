(** Property C125: the particle search in floating point. *)
From Coq Require Import ZArith List Bool Lia Lra Reals Sorting.Sorted Permutation.
From Verif Require Import Containers FsearchModel FsearchSpec FsearchProofs FsearchProofs2 FsearchProofs3.
Import ListNotations.
Local Open Scope R_scope.

(** For one particle: every sightline closer than the smoothing length by a part in 2^21 of the box is reported, each once in increasing order;
    nothing is reported that is further by more than a part in 2^23; the squared distance is right to a part in 2^47 of the box squared. *)
Theorem C125_search : forall L ls p, / 2 ^ 40 <= L -> 0 < p_h p -> good_particle L p -> List.Forall (good_line L) ls ->
  exists m, get_near_lines L ls p = Some m /\ StronglySorted Z.lt (map fst m) /\
    (forall i v, In (i, v) m -> exists n l d, i = Z.of_nat n /\ nth_error ls n = Some l /\ transverse_distance L p l d /\
       d <= p_h p + (p_h p + L) / 2 ^ 23 /\ Rabs (v - d * d) <= L * L / 2 ^ 47) /\
    (2 * p_h p + L / 2 ^ 20 <= L ->
     forall n l, nth_error ls n = Some l -> clearly_near L p l -> exists v, In (Z.of_nat n, v) m).
Proof. exact search_aux. Qed.
Print Assumptions C125_search.

(** The list of particles near any sightline, for every order in which the threads take the particles. *)
Theorem C125_list : forall L ls ps order, / 2 ^ 40 <= L -> (Z.of_nat (length ps) <= 2 ^ 31)%Z ->
  List.Forall (fun p => 0 < p_h p /\ 2 * p_h p + L / 2 ^ 20 <= L /\ good_particle L p) ps -> List.Forall (good_line L) ls ->
  Permutation order (seq 0 (length ps)) ->
  exists s, py_near_lines L ls ps order = Some s /\ StronglySorted Z.lt s /\
    (forall k, In k s -> exists i p l, k = Z.of_nat i /\ nth_error ps i = Some p /\ In l ls /\ about_near L p l) /\
    (forall i p l, nth_error ps i = Some p -> In l ls -> clearly_near L p l -> In (Z.of_nat i) s).
Proof. exact list_aux. Qed.
Print Assumptions C125_list.

(** The particles of each sightline with their squared distances, which do not depend on the order either. *)
Theorem C125_pairs : forall L ls ps order, / 2 ^ 40 <= L -> (Z.of_nat (length ps) <= 2 ^ 31)%Z ->
  List.Forall (fun p => 0 < p_h p /\ 2 * p_h p + L / 2 ^ 20 <= L /\ good_particle L p) ps -> List.Forall (good_line L) ls ->
  Permutation order (seq 0 (length ps)) ->
  exists lists, get_near_particles L ls ps order = Some lists /\ length lists = length ls /\
    get_near_particles L ls ps order = get_near_particles L ls ps (seq 0 (length ps)) /\
    forall n l m, nth_error ls n = Some l -> nth_error lists n = Some m ->
      StronglySorted Z.lt (map fst m) /\
      (forall k v, In (k, v) m -> exists i p d, k = Z.of_nat i /\ nth_error ps i = Some p /\ transverse_distance L p l d /\
         d <= p_h p + (p_h p + L) / 2 ^ 23 /\ Rabs (v - d * d) <= L * L / 2 ^ 47) /\
      (forall i p, nth_error ps i = Some p -> clearly_near L p l -> exists v, In (Z.of_nat i, v) m).
Proof. exact pairs_aux. Qed.
Print Assumptions C125_pairs.

(** A part of the box has to be allowed for: with a smoothing length less than the distance between neighbouring floats, a particle
    exactly on a sightline is not found. *)
Theorem C125_lost_refuted : forall L h y z, 2 ^ 25 <= L -> 0 < h < / 2 -> inside L y -> inside L z ->
  exists p l, p_h p = h /\ good_particle L p /\ good_line L l /\ transverse_distance L p l 0 /\ get_near_lines L [l] p = Some [].
Proof. exact lost_aux. Qed.
Print Assumptions C125_lost_refuted.

(** A particle in the corner of a box of 25000 that is near a sightline only through the periodic boundary. *)
Example C125_example :
  let p := mkPart 1 2 3 10 in let l := mkLine 3 24999 3 0 in
  / 2 ^ 40 <= 25000 /\ 0 < p_h p /\ 2 * p_h p + 25000 / 2 ^ 20 <= 25000 /\ good_particle 25000 p /\ List.Forall (good_line 25000) [l] /\
  clearly_near 25000 p l.
Proof.
  cbv zeta. cbn [p_h]. assert (I : forall c, 0 <= c <= 25000 -> inside 25000 c) by (intros c C; exact C).
  assert (GP : good_particle 25000 (mkPart 1 2 3 10)) by (repeat split; cbn; lra).
  assert (GL : good_line 25000 (mkLine 3 24999 3 0)) by (split; [cbn; auto|repeat split; cbn; lra]).
  split. { apply Rle_trans with (/ 1); [|lra]. apply Rinv_le_contravar; [lra|]. rewrite <- (pow1 40). apply pow_incr. lra. }
  split; [lra|]. split; [rewrite p20; lra|]. split; [exact GP|]. split; [constructor; [exact GL|constructor]|].
  exists (sqrt (2 * 2 + 1 * 1)). split.
  - exists 2, 1. split; [reflexivity|]. right; right. split; [reflexivity|]. cbn [p_x l_x p_y l_y].
    assert (E1 : fd 25000 1 24999 = 2) by (unfold fd; rewrite Rabs_left by lra; rewrite Rmin_right; lra).
    assert (E2 : fd 25000 2 3 = 1) by (unfold fd; rewrite Rabs_left by lra; rewrite Rmin_left; lra).
    pose proof (fd_periodic 25000 1 24999 ltac:(lra) (I 1 ltac:(lra)) (I 24999 ltac:(lra))) as D1. rewrite E1 in D1.
    pose proof (fd_periodic 25000 2 3 ltac:(lra) (I 2 ltac:(lra)) (I 3 ltac:(lra))) as D2. rewrite E2 in D2. split; assumption.
  - rewrite p21. cbn [p_h]. apply Rle_trans with (sqrt (3 * 3)); [apply sqrt_le_1_alt; lra|]. rewrite sqrt_square; lra.
Qed.

Example C125_lost_example : 2 ^ 25 <= 2 ^ 26 /\ 0 < / 4 < / 2 /\ inside (2 ^ 26) 0.
Proof.
  split; [apply Rle_pow; [lra|lia]|]. split; [lra|]. split; [lra|]. apply pow_le. lra.
Qed.
