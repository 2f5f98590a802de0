(** Properties C30, C37, C42 and C43: helpers on sets of sightlines. *)
From Coq Require Import ZArith List Bool Reals Permutation Lia Lra.
From Verif Require Import SightlineModel SightlineSpec SightlineProofs.
Import ListNotations.

(** ** C30 *)
Local Open Scope Z_scope.

(** Rolling a spectrum puts its first maximum at index size/2, permutes the pixels and is undone
    by rolling back by the reported amount. *)
Theorem C30_roll_to_peak : forall tau, tau <> [] ->
  exists roll out, roll_one_spectra tau = Some (roll, out) /\
    length out = length tau /\
    Permutation out tau /\
    np_roll out (- roll) = tau /\
    (exists m, nth_error out (length tau / 2) = Some m /\ forall x, In x tau -> x <= m) /\
    (forall i x m, nth_error tau i = Some x -> nth_error out (length tau / 2) = Some m ->
       Z.of_nat i < Z.of_nat (length tau / 2) - roll -> x < m).
Proof. exact C30_roll_aux. Qed.
Print Assumptions C30_roll_to_peak.

(** Every spectrum of a set is rolled independently, in place. *)
Theorem C30_roll_all : forall rows, rows <> [] -> Forall (fun r => r <> []) rows ->
  exists out, get_rolled_spectra rows = Some out /\ length out = length rows /\
    forall i row, nth_error rows i = Some row -> nth_error out i = roll_one_spectra row.
Proof. exact rolled_all_aux. Qed.
Print Assumptions C30_roll_all.

(** A set without sightlines cannot be rolled. *)
Theorem C30_roll_none_refuted : get_rolled_spectra [] = None.
Proof. reflexivity. Qed.
Print Assumptions C30_roll_none_refuted.

(** The pixel at [i] of a rolled spectrum is the pixel [i - shift], periodically. *)
Theorem C30_roll_pixels : forall l s i, (i < length l)%nat ->
  nth_error (np_roll l s) i = nth_error l (Z.to_nat ((Z.of_nat i - s) mod Z.of_nat (length l))).
Proof. exact roll_nth. Qed.
Print Assumptions C30_roll_pixels.

Example C30_example :
  roll_one_spectra [5; 1; 9; 2; 9] = Some (0, [5; 1; 9; 2; 9]) /\
  roll_one_spectra [9; 1; 2; 3] = Some (2, [2; 3; 9; 1]) /\
  roll_one_spectra [1; 2; 3; 9] = Some (-1, [2; 3; 9; 1]).
Proof. repeat split. Qed.

(** ** C37 *)

(** Sightlines come in one block per axis, all different, and they are exactly the grid. *)
Theorem C37_grid_complete : forall box n axis, (0 < box)%R -> (0 < n)%nat ->
  axis < 0 \/ 1 <= axis <= 3 ->
  exists axes cofm, get_axes_and_cofm box n axis = Some (axes, cofm) /\
    length axes = length cofm /\
    length cofm = (if (axis <? 0)%Z then 3 * (n * n) else n * n)%nat /\
    NoDup (combine axes cofm) /\
    forall ax p, In (ax, p) (combine axes cofm) <->
      (axis < 0 \/ ax = axis) /\ grid_sightline box n ax p.
Proof. exact C37_grid_aux. Qed.
Print Assumptions C37_grid_complete.

(** Their order: row [i] and column [j] of the face are found at i*n+j, and with all three axes
    the blocks of n*n sightlines follow each other in the order of the axes. *)
Theorem C37_grid_order : forall box n axis axes cofm i j, (i < n)%nat -> (j < n)%nat ->
  get_axes_and_cofm box n axis = Some (axes, cofm) ->
  (1 <= axis <= 3 ->
     nth_error axes (i * n + j) = Some axis /\
     nth_error cofm (i * n + j) = Some (grid_point box n axis i j)) /\
  (axis < 0 -> forall b, (b < 3)%nat ->
     nth_error axes (b * (n * n) + (i * n + j)) = Some (Z.of_nat b + 1) /\
     nth_error cofm (b * (n * n) + (i * n + j)) = Some (grid_point box n (Z.of_nat b + 1) i j)).
Proof. exact C37_order_aux. Qed.
Print Assumptions C37_grid_order.

(** Grid sightlines lie inside the box. *)
Theorem C37_grid_inside : forall box n ax p, (0 < box)%R -> (0 < n)%nat ->
  grid_sightline box n ax p ->
  match p with (x, y, z) => (0 <= x < box /\ 0 <= y < box /\ 0 <= z < box)%R end.
Proof. exact C37_inside_aux. Qed.
Print Assumptions C37_grid_inside.

(** Any other axis value is rejected. *)
Theorem C37_other_axis_rejected : forall box n axis, ~ (axis < 0 \/ 1 <= axis <= 3) ->
  get_axes_and_cofm box n axis = None.
Proof. exact C37_reject_aux. Qed.
Print Assumptions C37_other_axis_rejected.

Example C37_example :
  exists cofm, get_axes_and_cofm 10 2 (-1) = Some ([1;1;1;1;2;2;2;2;3;3;3;3], cofm) /\
    nth_error cofm 6 = Some (5, 0, 0)%R /\ nth_error cofm 11 = Some (5, 5, 0)%R.
Proof.
  eexists. split; [reflexivity|]. simpl. split; repeat f_equal; field.
Qed.

(** ** C42 *)

(** When all sightlines share one axis the two transverse coordinates are returned. *)
Theorem C42_uniform_accepted : forall A (a : Z) n (cofm : list (A * A * A)), 1 <= a <= 3 ->
  exists spos, get_spectra_proj_pos (repeat a (S n)) cofm = ProjPos spos /\
    length spos = length cofm /\
    forall i x y z, nth_error cofm i = Some (x, y, z) ->
      nth_error spos i = Some (if a =? 1 then (y, z) else if a =? 2 then (x, z) else (x, y)).
Proof. exact C42_uniform_aux. Qed.
Print Assumptions C42_uniform_accepted.

(** Unless the first axis is y, an accepted set has a single axis. *)
Theorem C42_accepted_uniform : forall A axis (cofm : list (A * A * A)) spos,
  (forall a, In a axis -> 1 <= a <= 3) -> hd 0 axis <> 2 ->
  get_spectra_proj_pos axis cofm = ProjPos spos -> forall a, In a axis -> a = hd 0 axis.
Proof. exact C42_accept_aux. Qed.
Print Assumptions C42_accepted_uniform.

(** A mixed set whose mean axis is the first and last axis is accepted. *)
Theorem C42_mixed_refuted : exists axis (cofm : list (Z * Z * Z)) spos,
  (forall a, In a axis -> 1 <= a <= 3) /\ (exists a b, In a axis /\ In b axis /\ a <> b) /\
  get_spectra_proj_pos axis cofm = ProjPos spos.
Proof.
  exists [2; 1; 3; 2], [(7, 0, 1); (0, 8, 2); (9, 3, 0); (4, 0, 5)],
         [(7, 1); (0, 2); (9, 0); (4, 5)].
  split; [simpl; intuition lia|]. split; [|reflexivity].
  exists 1, 3. simpl. intuition lia.
Qed.
Print Assumptions C42_mixed_refuted.

Example C42_example :
  get_spectra_proj_pos [3; 3] [(1, 2, 0); (4, 5, 0)] = ProjPos [(1, 2); (4, 5)] /\
  get_spectra_proj_pos [1; 2] [(1, 2, 0); (4, 5, 0)] = ProjMixed.
Proof. split; reflexivity. Qed.

(** ** C43 *)
Local Open Scope R_scope.

(** An accepted section size gives [m] sections of [k + 1] pixels per sightline, section [i]
    starting at pixel [i * k]; each is the flux divided by its own maximum. *)
Theorem C43_sections : forall vmax velfac box ss npix flux, 0 < box -> 0 < velfac ->
  vmax = box * velfac -> (2 <= npix)%nat ->
  Forall (fun row => length row = npix /\ Forall (fun x => 0 < x) row) flux ->
  box / (INR npix - 1) <= ss <= box ->
  exists m k out, renormalize_flux vmax velfac box ss npix flux = Some out /\
    (1 <= m)%nat /\ (1 <= k)%nat /\ (m * k + 1 <= npix)%nat /\
    INR m <= box / ss < INR m + 1 /\ INR k <= (INR npix - 1) * ss / box < INR k + 1 /\
    length out = (m * length flux)%nat /\
    forall i j row, (i < m)%nat -> nth_error flux j = Some row ->
      exists sec mx, window (i * k) (k + 1) row sec /\ is_max sec mx /\ 0 < mx /\
        nth_error out (i * length flux + j) = Some (map (fun x => x / mx) sec).
Proof. exact C43_renorm_aux. Qed.
Print Assumptions C43_sections.

(** Dividing by the maximum makes the maximum one and keeps the flux in (0, 1]. *)
Theorem C43_section_maximum : forall sec mx, is_max sec mx -> 0 < mx ->
  Forall (fun x => 0 < x) sec ->
  is_max (map (fun x => x / mx) sec) 1 /\ Forall (fun y => 0 < y <= 1) (map (fun x => x / mx) sec).
Proof. exact C43_normalised_aux. Qed.
Print Assumptions C43_section_maximum.

(** Section sizes out of range are rejected. *)
Theorem C43_bad_size_rejected : forall vmax velfac box ss npix flux, 0 < box -> 0 < velfac ->
  vmax = box * velfac -> (2 <= npix)%nat -> ss < box / (INR npix - 1) \/ box < ss ->
  renormalize_flux vmax velfac box ss npix flux = None.
Proof. exact C43_reject_aux. Qed.
Print Assumptions C43_bad_size_rejected.

(** Pixels can be lost: a ten pixel spectrum cut in two halves, whose last pixel (the only one
    that differs) leaves no trace in the result.  This is also a case meeting the hypotheses of
    [C43_sections]. *)
Theorem C43_lost_pixel_refuted :
  exists vmax velfac box ss flux out, 0 < box /\ 0 < velfac /\ vmax = box * velfac /\
    box / (INR 10 - 1) <= ss <= box /\
    (forall row, In row flux -> length row = 10%nat /\ Forall (fun x => 0 < x) row) /\
    renormalize_flux vmax velfac box ss 10 flux = Some out /\
    (exists row, In row flux /\ last row 0 = 7 /\ Forall (fun x => x = 1) (removelast row)) /\
    Forall (Forall (fun y => y = 1)) out.
Proof. exact C43_dropped_aux. Qed.
Print Assumptions C43_lost_pixel_refuted.
