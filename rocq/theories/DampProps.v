(** The constants of a line and the switch turn_off_selfshield: theorems. *)
From Coq Require Import ZArith List Bool Reals Lra Lia.
From Verif Require Import IndexModel AbsorptionModel AbsorptionSpec PipelineModel NeutralModel NeutralSpec DampModel DampSpec DampProofs DampProofs2.
Import ListNotations.
Local Open Scope R_scope.

(** C129.  The arrays of densities depend neither on the switch nor on the line, the mass of the atom, the Voigt profile and tautail. *)
Theorem C129_density : forall s s' gs m m' l l' off P t, s' = switched off (with_profile P t s) ->
  do_interpolation_work s' gs m' l' false = do_interpolation_work s gs m l false.
Proof. exact C129_density_aux. Qed.
Print Assumptions C129_density.

(** C129.  With the switch every line is computed as if it had no natural broadening: only the thermal profile enters, and lines without
    natural broadening are not affected. *)
Theorem C129_damping : forall s gs m l,
  do_interpolation_work (switched true s) gs m l true = do_interpolation_work (switched false s) gs m (undamped l) true /\
  (forall Q, (forall u, s_profile s u 0 = Q u 0) ->
     do_interpolation_work (with_profile Q (s_tautail s) (switched true s)) gs m l true
     = do_interpolation_work (switched true s) gs m l true) /\
  (s_off s = false -> gamma_X l = 0 -> do_interpolation_work (switched true s) gs m l true = do_interpolation_work s gs m l true).
Proof. exact C129_damping_aux. Qed.
Print Assumptions C129_damping.

(** C129.  A profile that damping raises beyond [U] thermal widths loses absorption in every pixel that far from the particle. *)
Theorem C129_wings : forall P L k (n : nat) dr2 dens vel temp smooth z U,
  (0 < n)%nat -> 0 <= sigma_a L -> 0 < bfac L -> 0 < velfac L -> 0 < vbox L -> 0 <= dens -> 0 < temp -> 0 < smooth -> 0 <= U ->
  (k = Voronoi -> dr2 <= smooth) -> (k <> Voronoi -> dr2 < smooth * smooth) ->
  let b := bfac L * sqrt temp in let bin := vbox L / INR n in
  (forall u, U <= Rabs u -> P u 0 <= P u (voigt_fac L / b)) ->
  apart (IZR z * bin - vel) (IZR z * bin - vel + bin) (velfac L * half_extent k dr2 smooth) (U * b) ->
  pixel_tau P (without_damping L) k n dr2 dens vel temp smooth z <= pixel_tau P L k n dr2 dens vel temp smooth z.
Proof. exact C129_wings_aux. Qed.
Print Assumptions C129_wings.

(** C129.  If damping raises the profile strictly, these pixels lose absorption strictly, for all four kernels. *)
Theorem C129_lost : forall P L k (n : nat) dr2 dens vel temp smooth z U,
  (0 < n)%nat -> 0 < sigma_a L -> 0 < bfac L -> 0 < velfac L -> 0 < vbox L -> 0 < dens -> 0 < temp -> 0 < smooth -> 0 <= U -> 0 <= dr2 ->
  (k = Voronoi -> 0 < dr2 < smooth) -> (k <> Voronoi -> dr2 < smooth * smooth) ->
  let b := bfac L * sqrt temp in let bin := vbox L / INR n in
  (forall u, U <= Rabs u -> P u 0 < P u (voigt_fac L / b)) ->
  apart (IZR z * bin - vel) (IZR z * bin - vel + bin) (velfac L * half_extent k dr2 smooth) (U * b) ->
  pixel_tau P (without_damping L) k n dr2 dens vel temp smooth z < pixel_tau P L k n dr2 dens vel temp smooth z.
Proof. exact C129_lost_aux. Qed.
Print Assumptions C129_lost.

Example C129_wings_case : let L := mkAbs 0 1 1 1 1 100 in let P u a := exp (- (u * u)) + a / (u * u) in
  (forall u, 1 <= Rabs u -> P u 0 < P u (voigt_fac L / (bfac L * sqrt 1))) /\
  apart (IZR 5 * (vbox L / INR 100) - 0) (IZR 5 * (vbox L / INR 100) - 0 + vbox L / INR 100) (velfac L * half_extent TopHat 0 1)
    (1 * (bfac L * sqrt 1)).
Proof.
  cbv zeta. cbn [voigt_fac bfac vbox velfac half_extent]. rewrite sqrt_1. split.
  - intros u Hu. assert (0 < u * u) by (unfold Rabs in Hu; destruct (Rcase_abs u); nra).
    unfold Rdiv. rewrite Rmult_0_l. pose proof (Rinv_0_lt_compat (u * u) H). nra.
  - left. replace (1 * 1 - 0) with 1 by ring. rewrite sqrt_1. rewrite INR_IZR_INZ. simpl. lra.
Qed.

(** C129.  Cross section, thermal width and damping of a line: with the classical radius r of the electron sigma_a is pi r lambda f, an
    atom of the thermal speed has the energy kT, and the damping is gamma lambda / (4 pi), in km/s. *)
Theorem C129_constants : forall lambda gamma fosc A velfac boxsize t r, 0 < A -> 0 <= r -> 6.652458558e-25 = 8 * PI / 3 * (r * r) ->
  let L := line_absorption lambda gamma fosc A velfac boxsize t in
  sigma_a L = PI * r * lambda * fosc /\
  (forall T, 0 <= T -> / 2 * (A * 1.67262178e-24) * (bfac L * sqrt T * 1e5) ^ 2 = 1.3806504e-16 * T) /\
  voigt_fac L * 1e5 * (4 * PI) = gamma * lambda /\ vbox L = boxsize * velfac.
Proof. exact C129_constants_aux. Qed.
Print Assumptions C129_constants.

Example C129_radius : exists r, 0 <= r /\ 6.652458558e-25 = 8 * PI / 3 * (r * r).
Proof.
  pose proof PI_RGT_0. exists (sqrt (6.652458558e-25 * (3 / (8 * PI)))). split; [apply sqrt_pos|].
  rewrite sqrt_sqrt; [set (e := 6.652458558e-25); field; lra|].
  apply Rmult_le_pos; [lra|]. apply Rmult_le_pos; [lra|]. left. apply Rinv_0_lt_compat. lra.
Qed.

(** C129.  Not the widths of atoms whose masses are those given, in atomic mass units: the unit is the mass of a proton, so that all
    widths are between 0.3% and 0.4% too small. *)
Theorem C129_mass_refuted : forall lambda gamma fosc A velfac boxsize t T v, 0 < A -> 0 < T -> 0 < v ->
  / 2 * (A * 1.66053906660e-24) * v ^ 2 = 1.3806504e-16 * T ->
  let w := bfac (line_absorption lambda gamma fosc A velfac boxsize t) * sqrt T * 1e5 in 0.996 * v < w < 0.997 * v.
Proof. exact C129_mass_aux. Qed.
Print Assumptions C129_mass_refuted.

(** C129.  The switch does not turn off self-shielding: with either setting the neutral fraction of star forming gas is that of a
    weakened background, and not that of the whole one. *)
Theorem C129_shielding_refuted : forall s g gs densities codes i p d c b, sf_neutral g = true -> bg g = Some b -> 0 < gamma_UVB b ->
  0 < conv g -> 0 < thresh g -> length gs = length densities -> length codes = length densities ->
  nth_error gs i = Some p -> nth_error densities i = Some d -> nth_error codes i = Some c -> thresh g < 0.76 * (d * conv g) ->
  exists x rest, rest = neutral_gas g gs densities codes /\
    (forall l get_tau off, hydrogen (switched off s) g gs densities codes l get_tau
       = do_interpolation_work (switched off s) rest 1.00794 l get_tau) /\
    option_map g_dens (nth_error rest i) = Some (g_dens p * x) /\
    (exists photo, 0 < photo < gamma_UVB b /\ in_balance (recomb_rate 1e4) (collisional_rate 1e4) photo (d * conv g) x) /\
    ~ in_balance (recomb_rate 1e4) (collisional_rate 1e4) (gamma_UVB b) (d * conv g) x.
Proof. exact C129_shielded_aux. Qed.
Print Assumptions C129_shielding_refuted.

Example C129_shielding_case : let g := Gas (Some (Uvb 2.15e-18 5.53e-13 0.17)) true 0.1 1 in
  0 < conv g /\ 0 < thresh g /\ thresh g < 0.76 * (1 * conv g).
Proof. cbn. lra. Qed.
