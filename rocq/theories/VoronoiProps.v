(** C14: Voronoi cells tile the sightline. *)
From Coq Require Import ZArith List Lia Reals Lra.
From Flocq Require Import Core.Raux.
From Verif Require Import AbsorptionSpec VoronoiModel VoronoiSpec VoronoiProofs.
Import ListNotations.
Local Open Scope R_scope.

(** The guard: the cell nearest to the first grid point is not nearest to the grid point in the
    middle of the box, unless it is nearest to all of them.  Then assign_cells returns one segment
    per cell; cells nearest to no grid point get a segment beyond 2*box (which the deposition
    skips); the others get a segment covering, periodically, exactly the grid intervals whose
    centre they are nearest to; and the lengths add up to the box. *)
Theorem C14_cells_tile_the_line : forall box yp zp cs,
  1 / 10 <= box -> 0 <= yp <= box -> 0 <= zp <= box -> cs <> [] -> Forall (inside_box box) cs ->
  let N := Z.to_nat (Zfloor (10 * box)) in let w := box / INR N in let x := fun i => (INR i + / 2) * w in
  (forall p, is_nearest box cs (x 0%nat) yp zp p ->
     ~ is_nearest box cs (x (N / 2)%nat) yp zp p \/
     forall i, (i < N)%nat -> is_nearest box cs (x i) yp zp p) ->
  exists segs, assign_cells box yp zp cs = Segments segs /\ length segs = length cs /\
    (forall m seg, nth_error segs m = Some seg ->
       (2 * box < fst seg /\ forall i, (i < N)%nat -> ~ is_nearest box cs (x i) yp zp m) \/
       (0 <= fst seg < snd seg /\ snd seg <= 2 * box /\
        (exists i, (i < N)%nat /\ is_nearest box cs (x i) yp zp m) /\
        forall i t, (i < N)%nat -> INR i * w < t < INR (i + 1) * w ->
          (covers box seg t <-> is_nearest box cs (x i) yp zp m))) /\
    rsum (map (fun s => if Rlt_dec (2 * box) (fst s) then 0 else snd s - fst s) segs) = box.
Proof. exact C14_tiling_aux2. Qed.
Print Assumptions C14_cells_tile_the_line.

(** The points of the line nearest to one cell never alternate with points of other cells more
    than once around the circle: this is what makes one segment per cell possible at all. *)
Theorem C14_nearest_is_an_arc : forall L cs y z m x0 x1 x2 x3, 0 < L -> Forall (inside_box L) cs ->
  0 <= y <= L -> 0 <= z <= L -> 0 <= x0 -> x0 <= x1 -> x1 <= x2 -> x2 <= x3 -> x3 <= L ->
  (is_nearest L cs x0 y z m -> is_nearest L cs x2 y z m ->
     is_nearest L cs x1 y z m \/ is_nearest L cs x3 y z m) /\
  (is_nearest L cs x1 y z m -> is_nearest L cs x3 y z m ->
     is_nearest L cs x2 y z m \/ is_nearest L cs x0 y z m).
Proof. exact nearest_four. Qed.
Print Assumptions C14_nearest_is_an_arc.

(** Without the guard: one cell receives the whole line although the other is nearest on part. *)
Theorem C14_middle_refuted : exists box yp zp cs segs,
  1 / 10 <= box /\ 0 <= yp <= box /\ 0 <= zp <= box /\ cs <> [] /\ Forall (inside_box box) cs /\
  assign_cells box yp zp cs = Segments segs /\
  let N := Z.to_nat (Zfloor (10 * box)) in let w := box / INR N in
  (exists i, (i < N)%nat /\ is_nearest box cs ((INR i + / 2) * w) yp zp 1%nat) /\
  2 * box < fst (nth 1 segs (0, 0)) /\
  snd (nth 0 segs (0, 0)) - fst (nth 0 segs (0, 0)) = box.
Proof. exact C14_middle_refuted_aux2. Qed.
Print Assumptions C14_middle_refuted.

(** Without the guard the process may also leave by exit(1). *)
Theorem C14_exit_refuted : exists box yp zp cs,
  1 / 10 <= box /\ 0 <= yp <= box /\ 0 <= zp <= box /\ cs <> [] /\ Forall (inside_box box) cs /\
  assign_cells box yp zp cs = Exits.
Proof. exact C14_exit_refuted_aux. Qed.
Print Assumptions C14_exit_refuted.

(** A sightline with no cell near it makes the code touch memory outside its array. *)
Theorem C14_no_cells_refuted : forall box yp zp, 1 / 10 <= box -> assign_cells box yp zp [] = OutOfBounds.
Proof. exact C14_no_cells_refuted_aux. Qed.
Print Assumptions C14_no_cells_refuted.

(** The hypotheses of C14 are met: two cells on a line of five grid points, one of them
    wrapping around the box edge. *)
Example C14_example : forall p, let x := fun i => (INR i + / 2) * (1 / 10) in
  is_nearest (/ 2) [exC; exA] (x 0%nat) 0 0 p -> ~ is_nearest (/ 2) [exC; exA] (x 2%nat) 0 0 p.
Proof.
  intros p x H H'.
  assert (X : forall i, (i < 5)%nat -> 0 <= x i <= / 2).
  { intros i Hi. unfold x. rewrite <- half_reso.
    apply grid_point_inside; [unfold RESO; lra|rewrite half_grid; assumption]. }
  pose proof (nearest_two (/ 2) 0 0 (x 0%nat) exC exA ltac:(lra) exC_in exA_in (X 0%nat ltac:(lia)) ltac:(lra) ltac:(lra)) as (H0 & _).
  pose proof (nearest_two (/ 2) 0 0 (x 2%nat) exC exA ltac:(lra) exC_in exA_in (X 2%nat ltac:(lia)) ltac:(lra) ltac:(lra)) as (_ & H1).
  pose proof (nearest_cell_spec (/ 2) 0 0 [exC; exA] (x 0%nat) ltac:(lra) ltac:(discriminate)
    (Forall_cons _ exC_in (Forall_cons _ exA_in (Forall_nil _))) (X 0%nat ltac:(lia)) ltac:(lra) ltac:(lra)) as N0.
  pose proof (nearest_cell_spec (/ 2) 0 0 [exC; exA] (x 2%nat) ltac:(lra) ltac:(discriminate)
    (Forall_cons _ exC_in (Forall_cons _ exA_in (Forall_nil _))) (X 2%nat ltac:(lia)) ltac:(lra) ltac:(lra)) as N2.
  rewrite H0 in N0. 2:{ unfold x, exA, exC. numeric. }
  rewrite H1 in N2. 2:{ unfold x, exA, exC. numeric. }
  pose proof (is_nearest_unique _ _ _ _ _ _ _ H N0). pose proof (is_nearest_unique _ _ _ _ _ _ _ H' N2).
  congruence.
Qed.
