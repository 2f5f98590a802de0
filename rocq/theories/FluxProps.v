(** C27, C28, C29, C53: flux PDF and flux power spectra.

    [parts] (with [divided]) and [fuel] are the threads and iterations of the rescaling to a requested
    mean flux (see C15, C16); [scaled_by ... s] says that [s] is the factor it finds, or 1 without request. *)
From Coq Require Import List Reals Lra Lia Arith Permutation.
From Verif Require Import AbsorptionSpec RescaleModel RescaleSpec FluxModel FluxSpec FluxProofs FluxProofs2 FluxProofs3.
Import ListNotations.
Local Open Scope R_scope.

(** C27: the PDF counts in every bin the pixels that fall into it, the last bin with its upper edge,
    divided by the number of pixels in range and the bin width; it is non-negative and integrates to 1. *)
Theorem C27_density : forall parts fuel tau nbins desired s centres pdf, scaled_by parts fuel tau desired s ->
  flux_pdf parts fuel tau nbins desired = Some (centres, pdf) ->
  length centres = nbins /\ length pdf = nbins /\
  (exists total, number (fun f => f <= 1) (map (fun t => exp (- (s * t))) tau) total /\ (0 < total)%nat /\
    forall i, (i < nbins)%nat -> nth i centres 0 = (INR i + 1 / 2) / INR nbins /\
      exists m, number (in_bin nbins i) (map (fun t => exp (- (s * t))) tau) m /\
        nth i pdf 0 = INR m / INR total * INR nbins) /\
  Forall (fun p => 0 <= p) pdf /\ rsum (map (fun p => p * (1 / INR nbins)) pdf) = 1.
Proof. exact C27_density_aux. Qed.
Print Assumptions C27_density.

(** It exists unless all pixels are out of range (negative optical depth). *)
Theorem C27_defined : forall parts fuel tau nbins desired s, (0 < nbins)%nat -> scaled_by parts fuel tau desired s ->
  (flux_pdf parts fuel tau nbins desired = None <-> Forall (fun t => 1 < exp (- (s * t))) tau).
Proof. exact C27_defined_aux. Qed.
Print Assumptions C27_defined.

(** With non-negative optical depths every pixel is in range. *)
Theorem C27_all_counted : forall s tau, 0 <= s -> Forall (fun t => 0 <= t) tau ->
  number (fun f => f <= 1) (map (fun t => exp (- (s * t))) tau) (length tau).
Proof. exact C27_all_counted_aux. Qed.
Print Assumptions C27_all_counted.

Theorem C27_order : forall parts parts' fuel tau tau' nbins desired,
  tau <> [] -> divided tau parts -> divided tau' parts' -> Permutation tau tau' ->
  flux_pdf parts fuel tau nbins desired = flux_pdf parts' fuel tau' nbins desired.
Proof. exact C27_order_aux. Qed.
Print Assumptions C27_order.

Example C27_case : exists out, flux_pdf (fun _ => []) 0 [0; 1; 7] 20 None = Some out.
Proof.
  destruct (flux_pdf (fun _ => []) 0 [0; 1; 7] 20 None) as [out|] eqn:E; [exists out; reflexivity|].
  assert (Hs : scaled_by (fun _ => []) 0 [0; 1; 7] None 1) by reflexivity.
  assert (Hn : (0 < 20)%nat) by lia. apply (C27_defined _ _ _ _ _ _ Hn Hs) in E. inversion E as [|? ? H]; subst.
  replace (- (1 * 0)) with 0 in H by ring. rewrite exp_0 in H. lra.
Qed.

(** C28: any number of batches covers every spectrum exactly once and in order, for any number of
    spectra. *)
Theorem C28_batches : forall (A : Type) nb (l : list A), (0 < nb)%nat ->
  flat_map (fun i => batch nb i l) (seq 0 nb) = l.
Proof. exact batches_cover. Qed.
Print Assumptions C28_batches.

(** The batched flux power is the plain average over spectra of their squared Fourier amplitudes, at
    the wavenumbers 2 pi k / vmax. *)
Theorem C28_average : forall parts fuel tau npix vmax res desired s,
  tau <> [] -> (0 < npix)%nat -> vmax <> 0 -> rectangular npix tau -> scaled_by parts fuel (concat tau) desired s ->
  mean_used (concat tau) desired <> 0 ->
  exists kf power, flux_power parts fuel tau npix vmax res desired false = Some (kf, power) /\
    length kf = (npix / 2 + 1)%nat /\ length power = (npix / 2 + 1)%nat /\
    forall k, (k < npix / 2 + 1)%nat ->
      nth k kf 0 = 2 * PI * INR k / vmax /\
      nth k power 0 = vmax * mean (map (fun row =>
        mode_power (map (fun t => exp (- (s * t)) / mean_used (concat tau) desired - 1) row) k) tau).
Proof. exact C28_average_aux. Qed.
Print Assumptions C28_average.

(** Three spectra (fewer than the ten batches) of two pixels. *)
Example C28_case : let tau := [[0; 1]; [2; 3]; [1; 1]] in
  rectangular 2 tau /\ scaled_by (fun _ => []) 0 (concat tau) None 1 /\ mean_used (concat tau) None <> 0.
Proof.
  split; [repeat constructor|]. split; [reflexivity|]. cbn [mean_used concat app map]. unfold mean, rsum. cbn [fold_right length].
  apply Rgt_not_eq. apply Rdiv_lt_0_compat; [rewrite Rplus_0_r; repeat apply Rplus_lt_0_compat; apply exp_pos|]. apply lt_0_INR. lia.
Qed.

(** C28, three dimensions: with 3*nt*nt spectra block i is the i-th third of the array, every spectrum
    enters exactly one of the three power spectra, and pixel p of spectrum number a*nt+b of a block is
    at (a/nt, b/nt, p/npix) of the box. *)
Theorem C28_three_blocks : forall power3d parts fuel tau nt npix boxsize desired s,
  rectangular npix tau -> length tau = (3 * (nt * nt))%nat ->
  scaled_by parts fuel (concat tau) desired s -> mean_used (concat tau) desired <> 0 ->
  exists c0 c1 c2,
    flux_power_3d power3d parts fuel tau npix boxsize desired =
    Some (map (fun p => p / 3) (add_lists (add_lists (power3d (1, 0, 0) c0) (power3d (0, 1, 0) c1)) (power3d (0, 0, 1) c2)),
          map (map (fun t => t * s)) tau) /\
    forall i cat, nth_error [c0; c1; c2] i = Some cat ->
      forall a b p row t, (a < nt)%nat -> (b < nt)%nat -> (p < npix)%nat ->
        nth_error tau (i * (nt * nt) + a * nt + b) = Some row -> nth_error row p = Some t ->
        nth_error cat ((a * nt + b) * npix + p) =
          Some (INR a * boxsize / INR nt, INR b * boxsize / INR nt, INR p * boxsize / INR npix,
                exp (- (s * t)) / mean_used (concat tau) desired - 1).
Proof. exact C53_aux. Qed.
Print Assumptions C28_three_blocks.

(** Any other number of spectra raises. *)
Theorem C28_other_sizes : forall power3d parts fuel tau npix boxsize desired s,
  scaled_by parts fuel (concat tau) desired s -> mean_used (concat tau) desired <> 0 ->
  (forall nt, length tau <> (3 * (nt * nt))%nat) -> flux_power_3d power3d parts fuel tau npix boxsize desired = None.
Proof. intros. eapply C28_blocks_aux; eassumption. Qed.
Print Assumptions C28_other_sizes.

(** C29 *)
Theorem C29_nonnegative : forall parts fuel tau npix vmax res desired window kf power,
  0 < vmax -> rectangular npix tau -> flux_power parts fuel tau npix vmax res desired window = Some (kf, power) ->
  Forall (fun p => 0 <= p) power.
Proof. exact C29_nonnegative_aux. Qed.
Print Assumptions C29_nonnegative.

(** Shifting every spectrum periodically, each by its own amount, changes nothing. *)
Theorem C29_shift : forall parts parts' fuel tau tau' npix vmax res desired window,
  (0 < npix)%nat -> rectangular npix tau -> all_shifted tau tau' ->
  divided (concat tau) parts -> divided (concat tau') parts' ->
  flux_power parts fuel tau npix vmax res desired window = flux_power parts' fuel tau' npix vmax res desired window.
Proof. exact C29_shift_aux. Qed.
Print Assumptions C29_shift.

(** Nor does the order of the spectra. *)
Theorem C29_order : forall parts parts' fuel tau tau' npix vmax res desired window,
  (0 < npix)%nat -> rectangular npix tau -> Permutation tau tau' ->
  divided (concat tau) parts -> divided (concat tau') parts' ->
  flux_power parts fuel tau npix vmax res desired window = flux_power parts' fuel tau' npix vmax res desired window.
Proof. exact C29_order_aux. Qed.
Print Assumptions C29_order.

(** Parseval: the modes, each counted as often as it occurs, add up to the mean square contrast; the
    zero mode is the mean square of the mean contrast of a spectrum. *)
Theorem C29_parseval : forall parts fuel tau npix vmax res desired s kf power,
  0 < vmax -> rectangular npix tau -> scaled_by parts fuel (concat tau) desired s ->
  flux_power parts fuel tau npix vmax res desired false = Some (kf, power) ->
  rsum (map (fun k => multiplicity npix k * nth k power 0) (seq 0 (npix / 2 + 1))) =
    vmax * mean (map (fun t => (exp (- (s * t)) / mean_used (concat tau) desired - 1) ^ 2) (concat tau)) /\
  nth 0 power 0 = vmax * mean (map (fun row =>
    mean (map (fun t => exp (- (s * t)) / mean_used (concat tau) desired - 1) row) ^ 2) tau).
Proof. exact C29_parseval_aux. Qed.
Print Assumptions C29_parseval.

(** Correcting for the spectrograph divides every mode by the square of a number in (0,1], never by zero:
    the transform of a Gaussian of full width at half maximum [res] times that of a pixel. *)
Theorem C29_window : forall parts fuel tau npix vmax res desired kf power,
  0 < vmax -> 0 < res -> rectangular npix tau -> flux_power parts fuel tau npix vmax res desired false = Some (kf, power) ->
  exists corrected, flux_power parts fuel tau npix vmax res desired true = Some (kf, corrected) /\
    length corrected = length power /\
    forall k, (k < npix / 2 + 1)%nat -> exists w, 0 < w <= 1 /\ (k = O -> w = 1) /\
      (k <> O -> w = exp (- (2 * PI * INR k / vmax * res) ^ 2 / (16 * ln 2)) *
                     (sin (PI * INR k / INR npix) / (PI * INR k / INR npix))) /\
      nth k corrected 0 = nth k power 0 / w ^ 2.
Proof. exact C29_window_aux. Qed.
Print Assumptions C29_window.

Example C29_case_shift : all_shifted [[1; 2; 3]; [4; 5; 6]] [[3; 1; 2]; [4; 5; 6]].
Proof.
  constructor; [exists 1%Z|constructor; [exists 0%Z|constructor]]; (split; [reflexivity|]); cbn [length]; intros j Hj;
    assert (j = 0 \/ j = 1 \/ j = 2)%Z as [-> | [-> | ->]] by lia; reflexivity.
Qed.

(** C53: consecutive pixels of a spectrum in blocks 0 and 1 are displaced perpendicularly to the line of
    sight handed to the power spectrum (the first and second coordinate axis), for every estimator. *)
Theorem C53_line_of_sight_refuted : forall power3d parts fuel tau nt npix boxsize desired s,
  rectangular npix tau -> length tau = (3 * (nt * nt))%nat ->
  scaled_by parts fuel (concat tau) desired s -> mean_used (concat tau) desired <> 0 ->
  exists c0 c1 c2 tau',
    flux_power_3d power3d parts fuel tau npix boxsize desired =
    Some (map (fun p => p / 3) (add_lists (add_lists (power3d (1, 0, 0) c0) (power3d (0, 1, 0) c1)) (power3d (0, 0, 1) c2)), tau') /\
    forall cat, In cat [c0; c1; c2] ->
      forall spectrum p, (spectrum < nt * nt)%nat -> (S p < npix)%nat ->
      exists x y z v x' y' z' v', nth_error cat (spectrum * npix + p) = Some (x, y, z, v) /\
        nth_error cat (spectrum * npix + S p) = Some (x', y', z', v') /\
        x' - x = 0 /\ y' - y = 0 /\ z' - z = boxsize / INR npix.
Proof. exact C53_los_aux. Qed.
Print Assumptions C53_line_of_sight_refuted.
