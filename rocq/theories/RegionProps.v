(** Properties C35 and C36: absorption regions and halo selection. *)
From Coq Require Import ZArith List Bool Lia Sorting.Sorted.
From Verif Require Import RegionModel RegionSpec RegionProofs.
Import ListNotations.

(** ** C35 *)

(** The regions are exactly the maximal runs of true pixels, in order, neither touching nor
    overlapping. *)
Theorem C35_regions_exact : forall c, c <> [] ->
  exists regs, contiguous_regions c = Some regs /\
    StronglySorted (fun r r' => snd r < fst r') regs /\
    forall a b, In (a, b) regs <-> maximal_run c a b.
Proof. exact C35_regions_aux. Qed.
Print Assumptions C35_regions_exact.

(** Combining merges precisely the neighbours closer than the minimum distance. *)
Theorem C35_combine_exact : forall c d, c <> [] -> (0 < d)%Z ->
  exists regs new, contiguous_regions c = Some regs /\ combine_regions c d = Some new /\
    merged d regs new.
Proof. exact combine_spec. Qed.
Print Assumptions C35_combine_exact.

(** With a non-positive minimum distance nothing is merged. *)
Theorem C35_combine_off : forall c d, c <> [] -> (d <= 0)%Z ->
  combine_regions c d = contiguous_regions c.
Proof. exact combine_zero. Qed.
Print Assumptions C35_combine_off.

(** No true pixel is lost, whatever the minimum distance. *)
Theorem C35_combine_covers : forall c d new i, c <> [] -> combine_regions c d = Some new ->
  nth_error c i = Some true -> exists a b, In (a, b) new /\ a <= i < b.
Proof. exact combine_covers. Qed.
Print Assumptions C35_combine_covers.

(** The guard: an empty mask raises. *)
Theorem C35_empty_refuted : contiguous_regions [] = None.
Proof. reflexivity. Qed.
Print Assumptions C35_empty_refuted.

Example C35_example :
  contiguous_regions [true; false; true; true; false; false; false; true] = Some [(0, 1); (2, 4); (7, 8)] /\
  combine_regions [true; false; true; true; false; false; false; true] 2 = Some [(0, 4); (7, 8)] /\
  combine_regions [true; false; true; true; false; false; false; true] 4 = Some [(0, 8)].
Proof. repeat split. Qed.

(** ** C36 *)
Local Open Scope Z_scope.

(** The halos kept are, in catalogue order, exactly those above the mass cut which no strictly
    more massive halo of the whole catalogue dominates; mass, position and radius returned for
    an index are those of that catalogue entry (in converted units). *)
Theorem C36_selection_exact : forall cat m dist,
  StronglySorted lt (map fst (find_wanted_halos cat m dist)) /\
  (forall i, In i (map fst (find_wanted_halos cat m dist)) <->
     exists h0, nth_error cat i = Some h0 /\ m < ha_mass h0 /\
       forall j h', nth_error cat j = Some h' -> ~ dominates (ha_r h0 * dist) h' h0) /\
  (forall i h, In (i, h) (find_wanted_halos cat m dist) ->
     exists h0, nth_error cat i = Some h0 /\
       h = mkHalo (ha_mass h0 * 10 ^ 10) (ha_x h0) (ha_y h0) (ha_z h0) (ha_r h0 * dist)).
Proof. exact C36_exact_aux. Qed.
Print Assumptions C36_selection_exact.

Example C36_example :
  map fst (find_wanted_halos [mkHalo 50 50 50 50 10; mkHalo 30 58 50 50 9; mkHalo 2 0 0 0 1;
                              mkHalo 20 80 80 80 5] 5 1) = [0; 3]%nat.
Proof. reflexivity. Qed.

(** Distances are not periodic: a halo next to a more massive one across the boundary of the
    box is kept. *)
Theorem C36_periodic_refuted : exists box cat m, 0 < box /\
  (forall h, In h cat -> 0 <= ha_x h < box /\ 0 <= ha_y h < box /\ 0 <= ha_z h < box) /\
  exists big small, nth_error cat 0 = Some big /\ nth_error cat 1 = Some small /\
    ha_mass small < ha_mass big /\
    Z.abs (ha_x small - ha_x big + box) < ha_r small /\
    ha_y small = ha_y big /\ ha_z small = ha_z big /\
    In 1%nat (map fst (find_wanted_halos cat m 1)).
Proof. exact C36_boundary_aux. Qed.
Print Assumptions C36_periodic_refuted.
