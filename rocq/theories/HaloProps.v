(** Properties C73, C74 and C75: absorbers of periodic spectra, the halos they belong to, and the velocities of halos. *)
From Coq Require Import ZArith List Bool Reals Lia Lra Sorting.Sorted.
From Verif Require Import HaloModel HaloSpec HaloProofs HaloProofs2 HaloProofs3 HaloProofs4.
Import ListNotations.
Local Open Scope R_scope.

(** ** C73 *)

(** The positions reported for a sightline are those of its absorbers, in order: the maximal runs of pixels above the cut
    within the period centred on the first maximum, each at its mean pixel weighted by column density, brought into the box.
    No pixel above the cut is missed. *)
Theorem C73_regions : forall box thresh relthresh n den, 0 < box -> (0 < n)%nat -> 0 <= thresh -> 0 <= relthresh ->
  den <> [] -> (forall row, In row den -> length row = n /\ forall x, In x row -> (0 <= x)%Z) ->
  exists zpos, get_contiguous_regions box thresh relthresh n den = Some zpos /\ length zpos = length den /\
    forall k row zs p c, nth_error den k = Some row -> nth_error zpos k = Some zs -> peak row p ->
      is_level thresh relthresh (nth p row 0%Z) c ->
      let lo := (Z.of_nat p - Z.of_nat (n / 2))%Z in
      exists runs, StronglySorted (fun r r' : Z * Z => (snd r < fst r')%Z) runs /\
        (forall a b, In (a, b) runs <-> absorber row lo c a b) /\
        (forall i, (lo <= i < lo + Z.of_nat n)%Z -> c < IZR (pix row i) -> exists a b, In (a, b) runs /\ (a <= i < b)%Z) /\
        Forall2 (fun r z => placed box n (centroid row (fst r) (snd r)) z) runs zs.
Proof. exact C73_regions_aux. Qed.
Print Assumptions C73_regions.

(** The mean pixel lies within the absorber. *)
Theorem C73_inside : forall den lo c a b, 0 <= c -> absorber den lo c a b ->
  IZR a <= centroid den a b <= IZR (b - 1).
Proof. exact C73_inside_aux. Qed.
Print Assumptions C73_inside.

(** Unless the seam opposite the peak has absorption on both sides, every absorber is a whole one: the pixels on either side
    of it, periodically, are not above the cut. *)
Theorem C73_whole : forall den lo c a b, den <> [] ->
  ~ (c < IZR (pix den lo) /\ c < IZR (pix den (lo - 1))) -> absorber den lo c a b ->
  (forall i, (a <= i < b)%Z -> c < IZR (pix den i)) /\ IZR (pix den (a - 1)) <= c /\ IZR (pix den b) <= c.
Proof. exact C73_whole_aux. Qed.
Print Assumptions C73_whole.

(** Moving a spectrum with a single highest pixel round the box by [k] pixels moves the positions, and nothing else. *)
Theorem C73_shift : forall box thresh relthresh den den' k p, 0 < box -> 0 <= thresh -> 0 <= relthresh ->
  (forall x, In x den -> (0 <= x)%Z) -> length den' = length den -> (forall i, pix den' i = pix den (i - k)) ->
  peak den p -> (forall i, (i < length den)%nat -> nth i den 0%Z = nth p den 0%Z -> i = p) ->
  exists zs zs', get_contiguous_regions box thresh relthresh (length den) [den] = Some [zs] /\
    get_contiguous_regions box thresh relthresh (length den) [den'] = Some [zs'] /\
    Forall2 (moved_by box (IZR k * box / INR (length den))) zs zs'.
Proof. exact C73_shift_aux. Qed.
Print Assumptions C73_shift.

(** An absorber across the seam is reported twice, once on each side. *)
Theorem C73_seam_refuted : exists box thresh relthresh den z1 z2 z3, 0 < box /\ 0 < thresh /\ 0 < relthresh /\
  get_contiguous_regions box thresh relthresh 6 [den] = Some [[z1; z2; z3]] /\
  (forall i, (-1 <= i < 1)%Z -> thresh < IZR (pix den i)) /\
  z1 = 0 /\ z3 = 5 * box / 6.
Proof. exact C73_seam_aux. Qed.
Print Assumptions C73_seam_refuted.

(** A set without sightlines raises. *)
Theorem C73_empty_refuted : forall box thresh relthresh n, get_contiguous_regions box thresh relthresh n [] = None.
Proof. reflexivity. Qed.
Print Assumptions C73_empty_refuted.

(** A spectrum with one highest pixel, and the same spectrum one pixel further on. *)
Example C73_example :
  let den := [0; 7; 3; 0]%Z in let den' := [0; 0; 7; 3]%Z in
  peak den 1 /\ is_level 1 1 7 1 /\ absorber den (-1) 1 1 3 /\ centroid den 1 3 = 13 / 10 /\
  length den' = length den /\ (forall i, pix den' i = pix den (i - 1)) /\
  (forall i, (i < length den)%nat -> nth i den 0%Z = nth 1 den 0%Z -> i = 1%nat) /\
  ~ (1 < IZR (pix den (-1)) /\ 1 < IZR (pix den (-1 - 1))).
Proof.
  cbv zeta. split; [|split; [|split; [|split; [|split; [|split; [|split]]]]]].
  - split; [simpl; lia|]. split.
    + intros i I. do 4 (destruct i as [|i]; [simpl; lia|]). simpl in I. lia.
    + intros i I. destruct i as [|i]; [simpl; lia|lia].
  - left. lra.
  - split; [lia|]. split; [simpl; lia|]. split; [|split].
    + intros i I. assert (i = 1 \/ i = 2)%Z as [-> | ->] by lia; [change (1 < 7)|change (1 < 3)]; lra.
    + right. change (0 <= 1). lra.
    + right. change (0 <= 1). lra.
  - change (centroid [0; 7; 3; 0]%Z 1 3) with ((7 * 1 + (3 * 2 + 0)) / (7 + (3 + 0))). lra.
  - reflexivity.
  - intros i. unfold pix. change (Z.of_nat (length [0; 0; 7; 3]%Z)) with 4%Z. change (Z.of_nat (length [0; 7; 3; 0]%Z)) with 4%Z.
    rewrite (Zminus_mod i 1). change (1 mod 4)%Z with 1%Z.
    assert (B : (0 <= i mod 4 < 4)%Z) by (apply Z.mod_pos_bound; lia).
    assert (i mod 4 = 0 \/ i mod 4 = 1 \/ i mod 4 = 2 \/ i mod 4 = 3)%Z as [-> | [-> | [-> | ->]]] by lia; reflexivity.
  - intros i I. do 4 (destruct i as [|i]; [simpl; lia|]). simpl in I. lia.
  - intros [Q _]. change (1 < 0) in Q. lra.
Qed.

(** ** C74 *)

(** Each position gets the first halo of the catalogue whose sphere contains the point of the sightline at that position, with
    its distance; positions in no halo are dropped.  A sightline does not affect another. *)
Theorem C74_assign : forall radii cofm zpos lines, length radii = length cofm -> (length zpos <= length lines)%nat ->
  (forall c ax, In (c, ax) lines -> (1 <= ax <= 3)%Z) ->
  exists out, assign_to_halo lines radii cofm zpos = Some out /\ length out = length zpos /\
    forall k c ax zs hs, nth_error lines k = Some (c, ax) -> nth_error zpos k = Some zs -> nth_error out k = Some hs ->
      hosts radii cofm (map (on_line c ax) zs) hs.
Proof. exact C74_assign_aux. Qed.
Print Assumptions C74_assign.

(** The halo reported for a sightline is one with the greatest mass over radius among the hosts of its absorbers and the
    parents of the subhalos hosting them, and -1 exactly when there is none; in whichever order Python enumerates sets, and
    the same when asked again. *)
Theorem C74_nearest : forall set_list u s, (forall l, enumerates l (set_list l)) -> good_units u -> good_state s ->
  st_cache s = None ->
  exists zpos out s', get_contiguous_regions (st_box s) 1e19 1e-2 (st_nbins s) (st_den s) = Some zpos /\
    find_nearest_halo set_list u s = Some (out, s') /\ length out = length (st_lines s) /\
    find_nearest_halo set_list u s' = Some (out, s') /\
    forall k c ax zs o, nth_error (st_lines s) k = Some (c, ax) -> nth_error zpos k = Some zs -> nth_error out k = Some o ->
      let cand := candidate (sub_radii (st_cat s)) (sub_cofm (st_cat s)) (sub_sub_radii (st_cat s))
                    (sub_sub_cofm (st_cat s)) (sub_sub_index (st_cat s)) (map (on_line c ax) zs) in
      (o = (-1)%Z /\ forall h, ~ cand h) \/
      exists h m r d, o = Z.of_nat h /\ cand h /\ nth_error (sub_mass (st_cat s)) h = Some m /\
        nth_error (sub_radii (st_cat s)) h = Some r /\ depth m r d /\
        forall h' m' r' d', cand h' -> nth_error (sub_mass (st_cat s)) h' = Some m' ->
          nth_error (sub_radii (st_cat s)) h' = Some r' -> depth m' r' d' -> d' <= d.
Proof. exact C74_nearest_aux. Qed.
Print Assumptions C74_nearest.

(** The stored halos are returned for sightlines they do not belong to. *)
Theorem C74_stale_refuted : forall set_list, (forall l, enumerates l (set_list l)) ->
  exists s s1 lines near far, good_state s /\
  find_nearby_halos set_list s = Some (near, s1) /\
  let s2 := mkState lines (st_den s1) (st_box s1) (st_nbins s1) (st_cat s1) (st_cache s1) in
  let fresh := mkState lines (st_den s) (st_box s) (st_nbins s) (st_cat s) None in
  good_state fresh /\
  (exists s3, find_nearby_halos set_list s2 = Some (near, s3)) /\
  (exists s3, find_nearby_halos set_list fresh = Some (far, s3)) /\ near <> far.
Proof. exact C74_stale_aux. Qed.
Print Assumptions C74_stale_refuted.

(** Sightlines in the first halo of the catalogue are in the histogram and missing from the plots. *)
Theorem C74_zero_refuted : forall set_list, (forall l, enumerates l (set_list l)) -> exists u s s',
  good_units u /\ good_state s /\ find_nearest_halo set_list u s = Some ([0%Z], s') /\
  hist_keeps 0 = true /\ plot_keeps 0 = false.
Proof. exact C74_zero_aux. Qed.
Print Assumptions C74_zero_refuted.

(** Every other sightline with a halo is in both, and one without in neither. *)
Theorem C74_kept : forall h, (-1 <= h)%Z -> h <> 0%Z ->
  plot_keeps h = hist_keeps h /\ (hist_keeps h = false <-> h = (-1)%Z).
Proof.
  intros h H N. unfold plot_keeps, hist_keeps. destruct (Z.ltb_spec 0 h); destruct (Z.eqb_spec h (-1)); cbn [negb];
  split; try reflexivity; try lia; split; intros; try lia; discriminate.
Qed.
Print Assumptions C74_kept.

(** Distances are not periodic: a position within the radius of a halo across the boundary is in no halo. *)
Theorem C74_periodic_refuted : exists box radii cofm c z, 0 < box /\
  (forall h, In h cofm -> (0 <= fst (fst h) < box /\ 0 <= snd (fst h) < box /\ 0 <= snd h < box)) /\
  0 <= z < box /\ 0 <= snd (fst c) < box /\ 0 <= snd c < box /\
  contains radii cofm (fst (fst (on_line c 1 z)) - box, snd (fst (on_line c 1 z)), snd (on_line c 1 z)) 0 /\
  assign_to_halo [(c, 1%Z)] radii cofm [[z]] = Some [[]].
Proof. exact C74_periodic_aux. Qed.
Print Assumptions C74_periodic_refuted.

(** If the parents were read as floats, every sightline with a subhalo raises. *)
Theorem C74_floats_refuted : forall set_list u c halos subhalos, (forall l, enumerates l (set_list l)) ->
  index_is_int c = false -> subhalos <> [] -> nearest_one set_list u c halos subhalos = None.
Proof. exact C74_floats_aux. Qed.
Print Assumptions C74_floats_refuted.

(** An enumeration of sets exists, and a catalogue and sightline satisfying the hypotheses. *)
Example C74_example : (forall l, enumerates l (nodup Nat.eq_dec l)) /\ good_units plain_units /\
  good_state (one_line (1/2)) /\ st_cache (one_line (1/2)) = None.
Proof.
  split; [|split; [apply plain_good|split; [apply one_line_good|reflexivity]]].
  intros l. split; [apply NoDup_nodup|]. intros x. apply nodup_In.
Qed.

(** ** C75 *)

(** The velocity of a halo is the square root of the Hubble parameter times the circular velocity of its physical mass at its
    physical radius. *)
Theorem C75_circular : forall u m r v, good_units u -> 0 <= m -> 0 < r ->
  circular (u_grav u) (m * (u_mass u / 1e10) / u_hubble u) (r * u_length u / u_hubble u / (1 + u_red u)) v ->
  virial_one u m r * 1e5 = sqrt (u_hubble u) * v.
Proof. exact C75_circular_aux. Qed.
Print Assumptions C75_circular.

(** So it is not that velocity, unless the Hubble parameter is one. *)
Theorem C75_hubble_refuted : exists u m r v, good_units u /\ 0 < m /\ 0 < r /\
  circular (u_grav u) (m * (u_mass u / 1e10) / u_hubble u) (r * u_length u / u_hubble u / (1 + u_red u)) v /\
  virial_one u m r * 1e5 = v / 2 /\ v <> v / 2.
Proof. exact C75_hubble_aux. Qed.
Print Assumptions C75_hubble_refuted.

(** Halos are ordered by velocity as by mass over radius, in any units and cosmology. *)
Theorem C75_order : forall u m r m' r' d d', good_units u -> 0 <= d -> 0 <= d' -> depth m r d -> depth m' r' d' ->
  (virial_one u m' r' <= virial_one u m r <-> d' <= d).
Proof. exact virial_le_iff. Qed.
Print Assumptions C75_order.

(** Empty halos have velocity zero; a halo with mass but no radius is given radius one. *)
Theorem C75_empty : forall u m, virial_one u 0 0 = 0 /\ virial_one u m 0 = virial_one u m 1.
Proof. exact C75_zero_aux. Qed.
Print Assumptions C75_empty.

(** virial_vel takes mass and radius of the same kind and row, in the order asked for, and raises if one is missing. *)
Theorem C75_lookup : forall u c halos sub out, virial_vel u c halos sub = Some out <->
  Forall2 (fun i v => exists m r, nth_error (if sub then sub_sub_mass c else sub_mass c) i = Some m /\
    nth_error (if sub then sub_sub_radii c else sub_radii c) i = Some r /\ v = virial_one u m r) halos out.
Proof. exact C75_lookup_aux. Qed.
Print Assumptions C75_lookup.

(** A subhalo with the same mass and radius in the catalogue as a halo gets a velocity smaller by the square root of the mass
    unit over the solar mass (10^5). *)
Theorem C75_subhalo_refuted : forall u raw r, good_units u -> 0 <= raw -> 0 < r -> forall grp sub,
  load_masses (u_mass u) [raw] [raw] = ([grp], [sub]) ->
  virial_one u grp r = sqrt (u_mass u / solar_mass) * virial_one u sub r.
Proof. exact C75_subhalo_aux. Qed.
Print Assumptions C75_subhalo_refuted.

(** The smallest resolved mass is that of [minpart] equal shares of the matter of the box (27.8 Omega_M (Mpc/h)^-3 in units of
    10^10 solar masses), one share per gas particle. *)
Theorem C75_min_mass : forall omegam box npart minpart, 0 < npart ->
  min_halo_mass omegam box (Some npart) minpart * npart = minpart * (27.8 * omegam * (box / 1000) ^ 3).
Proof. exact C75_min_mass_aux. Qed.
Print Assumptions C75_min_mass.

Example C75_example : good_units plain_units /\ depth 6 2 3 /\ depth 1 0 1 /\ circular 1 4 1 2 /\
  min_halo_mass 0.3 1000 (Some 100) 10 = 0.834.
Proof.
  split; [apply plain_good|]. split; [left; lra|]. split; [right; lra|]. split; [split; lra|].
  apply Rmult_eq_reg_r with 100; [|lra]. rewrite C75_min_mass by lra. replace (1000 / 1000) with 1 by lra. lra.
Qed.
