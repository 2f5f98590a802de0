(** C110, C111: the statistics of the same spectra agree with each other, and equivalent widths follow the curve of growth. *)
From Coq Require Import ZArith Reals Lra Lia Arith.
From Coq Require Import List.
From Verif Require Import AbsorptionModel AbsorptionSpec StrengthSpec StrengthProofs5 StrengthProps RescaleModel FluxModel FluxSpec ObserverModel AgreeProofs AgreeProofs2.
Import ListNotations.
Local Open Scope R_scope.

(** C110: the mean equivalent width is the width of the whole spectrum in wavelength times the mean absorbed fraction, less
    at most one pixel (the two end pixels count half); without absorption in the end pixels it is exactly that. *)
Theorem C110_width : forall dvbin light line npix tau, 0 < dvbin -> 0 < light -> 0 < line ->
  tau <> [] -> (0 < npix)%nat -> rectangular npix tau -> Forall (Forall (fun t => 0 <= t)) tau ->
  let c := light / 100000 in let vmax := INR npix * dvbin in
  let total := line * (vmax / c) * (1 - mean (map (fun t => exp (- t)) (concat tau))) in
  total - line * (dvbin / c) <= mean (equivalent_width dvbin light line tau) <= total.
Proof. exact C110_width_aux. Qed.
Print Assumptions C110_width.

Theorem C110_exact : forall dvbin light line npix tau, 0 < light -> tau <> [] -> (0 < npix)%nat -> rectangular npix tau ->
  Forall (fun row => hd 0 row = 0 /\ last row 0 = 0) tau ->
  mean (equivalent_width dvbin light line tau) =
  line * (INR npix * dvbin / (light / 100000)) * (1 - mean (map (fun t => exp (- t)) (concat tau))).
Proof. exact C110_exact_aux. Qed.
Print Assumptions C110_exact.

(** The mean over the flux PDF is the mean flux to half a bin, also after rescaling to a requested mean flux. *)
Theorem C110_pdf : forall parts fuel tau nbins desired s centres pdf, scaled_by parts fuel tau desired s ->
  Forall (fun t => 0 <= t) tau -> flux_pdf parts fuel tau nbins desired = Some (centres, pdf) ->
  Rabs (rsum (map (fun i => nth i centres 0 * nth i pdf 0 / INR nbins) (seq 0 nbins)) - mean (map (fun t => exp (- (s * t))) tau)) <=
    1 / (2 * INR nbins).
Proof. exact C110_pdf_aux. Qed.
Print Assumptions C110_pdf.

(** The total power is given by the first two moments of the flux, and bounded by the mean flux alone. *)
Theorem C110_power : forall parts fuel tau npix vmax res kf power, 0 < vmax -> rectangular npix tau ->
  Forall (Forall (fun t => 0 <= t)) tau ->
  flux_power parts fuel tau npix vmax res None false = Some (kf, power) ->
  let F := mean (map (fun t => exp (- t)) (concat tau)) in
  let F2 := mean (map (fun t => exp (- t) ^ 2) (concat tau)) in
  let total := rsum (map (fun k => multiplicity npix k * nth k power 0) (seq 0 (npix / 2 + 1))) in
  0 < F <= 1 /\ total = vmax * (F2 / F ^ 2 - 1) /\ 0 <= total <= vmax * ((1 - F) / F).
Proof. exact C110_power_aux. Qed.
Print Assumptions C110_power.

(** The same optical depth added to every pixel leaves the power spectrum as it is. *)
Theorem C110_screen : forall parts fuel tau npix vmax res window c, rectangular npix tau ->
  flux_power parts fuel (map (map (fun t => t + c)) tau) npix vmax res None window =
  flux_power parts fuel tau npix vmax res None window.
Proof. exact C110_screen_aux. Qed.
Print Assumptions C110_screen.

(** The effective optical depth is at most the mean optical depth. *)
Theorem C110_effective : forall tau, tau <> [] -> exp (- mean tau) <= mean (map (fun t => exp (- t)) tau).
Proof. exact C110_effective_aux. Qed.
Print Assumptions C110_effective.

(** C111: an equivalent width is at most that of the same optical depths without saturation, and falls short of it by at
    most half the largest optical depth. *)
Theorem C111_limit : forall dvbin light line row w, 0 < dvbin -> 0 < light -> 0 < line -> Forall (fun t => 0 <= t) row ->
  equivalent_width dvbin light line [row] = [w] -> w <= line / (light / 100000) * (dvbin * rsum row).
Proof. intros dvbin light line row w Hd Hl Hn. exact (C111_limit_aux dvbin light line Hd Hl Hn row w). Qed.
Print Assumptions C111_limit.

Theorem C111_thin : forall dvbin light line row w e, 0 < dvbin -> 0 < light -> 0 < line -> Forall (fun t => 0 <= t <= e) row ->
  hd 0 row = 0 -> last row 0 = 0 -> equivalent_width dvbin light line [row] = [w] ->
  (1 - e / 2) * (line / (light / 100000) * (dvbin * rsum row)) <= w <= line / (light / 100000) * (dvbin * rsum row).
Proof. intros dvbin light line row w e Hd Hl Hn. exact (C111_thin_aux dvbin light line Hd Hl Hn row w e). Qed.
Print Assumptions C111_thin.

(** So the equivalent width of the particles on a sightline is at most what their columns would absorb unsaturated. *)
Theorem C111_atoms : forall profile L k (n : nat) q e ps tau light wavelength w,
  (forall u, profile u 0 = exp (- (u * u))) -> voigt_fac L = 0 -> tautail L = 0 ->
  0 <= sigma_a L -> 0 < bfac L -> 0 < velfac L -> 0 < vbox L -> (0 < n)%nat -> 1 <= q ->
  (forall p, In p ps -> contained L k n q p /\ allowance (vbox L / INR n) (bfac L * sqrt (p_temp p)) q <= e) ->
  in_turn (fun p => add_tau_particle profile L k (Z.of_nat n) (p_dr2 p) (p_dens p) (p_pos p) (p_vel p) (p_temp p) (p_smooth p))
    ps (repeat 0 n) tau ->
  0 < light -> 0 < wavelength -> equivalent_width (vbox L / INR n) light wavelength [tau] = [w] ->
  0 <= w <= wavelength / (light / 100000) * (absorption L * rsum (map (column k) ps) * (1 + e)).
Proof.
  intros profile L k n q e ps tau light wavelength w H1 H2 H3 H4 H5 H6 H7 H8 H9.
  exact (C111_atoms_aux profile H1 L H2 H4 H5 H6 H7 k n q e ps tau light wavelength w H3 H8 H9).
Qed.
Print Assumptions C111_atoms.

(** Multiplying all optical depths by a factor of at least one increases every width, by at most that factor. *)
Theorem C111_growth : forall dvbin light line a tau, 0 < dvbin -> 0 < light -> 0 < line -> 1 <= a ->
  Forall (Forall (fun t => 0 <= t)) tau ->
  Forall2 (fun w w' => w <= w' <= a * w) (equivalent_width dvbin light line tau)
    (equivalent_width dvbin light line (map (map (fun t => a * t)) tau)).
Proof. intros dvbin light line a tau Hd Hl Hn. exact (C111_growth_aux dvbin light line Hd Hl Hn a tau). Qed.
Print Assumptions C111_growth.

(** Two absorbers on one sightline have at least the width of either and at most the sum of the two. *)
Theorem C111_blend : forall dvbin light line x y wx wy w, 0 < dvbin -> 0 < light -> 0 < line ->
  length x = length y -> Forall (fun t => 0 <= t) x -> Forall (fun t => 0 <= t) y ->
  equivalent_width dvbin light line [x; y; map (fun p => fst p + snd p) (combine x y)] = [wx; wy; w] ->
  wx <= w /\ wy <= w /\ w <= wx + wy.
Proof. intros dvbin light line x y wx wy w Hd Hl Hn. exact (C111_blend_aux dvbin light line Hd Hl Hn x y wx wy w). Qed.
Print Assumptions C111_blend.

(** Two sightlines of three pixels without absorption in the end pixels. *)
Example C110_case : let tau := [[0; 1; 0]; [0; 2; 0]] in
  rectangular 3 tau /\ Forall (Forall (fun t => 0 <= t)) tau /\ Forall (fun row => hd 0 row = 0 /\ last row 0 = 0) tau.
Proof. cbn zeta. split; [repeat constructor|]. split; repeat constructor; cbn; lra. Qed.

(** With a power spectrum and a flux PDF. *)
Example C110_case_defined : exists kf power, flux_power (fun _ => []) 0 [[0; 1; 0]; [0; 2; 0]] 3 100 5 None false = Some (kf, power).
Proof.
  destruct (FluxProofs2.C28_average_aux (fun _ => []) 0 [[0; 1; 0]; [0; 2; 0]] 3 100 5 None 1) as (kf & power & E & _);
    try discriminate; try lia; try lra; try reflexivity.
  - repeat constructor.
  - cbn [mean_used concat app map]. unfold mean, rsum. cbn [fold_right length].
    apply Rgt_not_eq. apply Rdiv_lt_0_compat; [rewrite Rplus_0_r; repeat apply Rplus_lt_0_compat; apply exp_pos|]. apply lt_0_INR. lia.
  - exists kf, power. exact E.
Qed.

Example C110_case_pdf : exists out, flux_pdf (fun _ => []) 0 [0; 1; 2] 20 None = Some out.
Proof.
  destruct (flux_pdf (fun _ => []) 0 [0; 1; 2] 20 None) as [out|] eqn:E; [exists out; reflexivity|].
  assert (Hs : scaled_by (fun _ => []) 0 [0; 1; 2] None 1) by reflexivity.
  assert (Hn : (0 < 20)%nat) by lia. apply (FluxProofs3.C27_defined_aux _ _ _ _ _ _ Hn Hs) in E. inversion E as [|? ? H]; subst.
  replace (- (1 * 0)) with 0 in H by ring. rewrite exp_0 in H. lra.
Qed.
