(** C104: the optical depth integrated over a line is the absorption of the line times the column of gas, whatever the
    temperature, velocity and pixels. *)
From Coq Require Import Reals ZArith Lra Lia Bool.
From Coquelicot Require Import Coquelicot.
From Coq Require Import List.
From Flocq Require Import Core.Raux.
From Verif Require Import AbsorptionModel AbsorptionSpec StrengthSpec StrengthProofs StrengthProofs5.
From Verif Require FaddModel FaddProps.
Import ListNotations.
Local Open Scope R_scope.

(** One particle, no damping, no tail cut: the total is right to the allowance. *)
Theorem C104_total : forall profile L k (n : nat) q p tau tau',
  (forall u, profile u 0 = exp (- (u * u))) -> voigt_fac L = 0 -> tautail L = 0 ->
  0 <= sigma_a L -> 0 < bfac L -> 0 < velfac L -> 0 < vbox L -> (0 < n)%nat -> length tau = n ->
  1 <= q -> contained L k n q p ->
  add_tau_particle profile L k (Z.of_nat n) (p_dr2 p) (p_dens p) (p_pos p) (p_vel p) (p_temp p) (p_smooth p) tau = Some tau' ->
  let bin := vbox L / INR n in let A := absorption L * column k p in
  Rabs (bin * (rsum tau' - rsum tau) - A) <= A * allowance bin (bfac L * sqrt (p_temp p)) q.
Proof.
  intros profile L k n q p tau tau' H1 H2 H3 H4 H5 H6 H7 H8 H9 H10 H11 H12.
  exact (proj2 (total_one profile H1 L H2 H4 H5 H6 H7 k n q p tau tau' H8 H3 H10 H9 H11 H12)).
Qed.
Print Assumptions C104_total.

(** The allowance is at most 1/288 for lines eight widths inside the window, on any pixels, and falls with the fourth
    power of the pixel width on fine ones. *)
Theorem C104_allowance : forall bin b q, 0 < bin -> 0 < b -> 8 <= q ->
  allowance bin b q <= 1 / 288 + / 10 ^ 20 /\ allowance bin b q <= (bin / b) ^ 4 / 18 + / 10 ^ 20.
Proof. exact allowance_small. Qed.
Print Assumptions C104_allowance.

(** Any number of particles. *)
Theorem C104_many : forall profile L k (n : nat) q e ps tau tau',
  (forall u, profile u 0 = exp (- (u * u))) -> voigt_fac L = 0 -> tautail L = 0 ->
  0 <= sigma_a L -> 0 < bfac L -> 0 < velfac L -> 0 < vbox L -> (0 < n)%nat -> length tau = n -> 1 <= q ->
  (forall p, In p ps -> contained L k n q p /\ allowance (vbox L / INR n) (bfac L * sqrt (p_temp p)) q <= e) ->
  in_turn (fun p => add_tau_particle profile L k (Z.of_nat n) (p_dr2 p) (p_dens p) (p_pos p) (p_vel p) (p_temp p) (p_smooth p))
    ps tau tau' ->
  let bin := vbox L / INR n in let A := absorption L * rsum (map (column k) ps) in
  Rabs (bin * (rsum tau' - rsum tau) - A) <= A * e.
Proof.
  intros profile L k n q e ps tau tau' H1 H2 H3 H4 H5 H6 H7 H8 H9 H10 H11 H12.
  exact (total_many profile H1 L H2 H4 H5 H6 H7 k n q e ps tau tau' H8 H3 H10 H9 H11 H12).
Qed.
Print Assumptions C104_many.

(** Temperature, position and velocity only move the absorption about. *)
Theorem C104_moved : forall profile L k (n : nat) q p1 p2 t1 t2,
  (forall u, profile u 0 = exp (- (u * u))) -> voigt_fac L = 0 -> tautail L = 0 ->
  0 <= sigma_a L -> 0 < bfac L -> 0 < velfac L -> 0 < vbox L -> (0 < n)%nat -> 1 <= q ->
  contained L k n q p1 -> contained L k n q p2 ->
  p_dr2 p1 = p_dr2 p2 -> p_smooth p1 = p_smooth p2 -> p_dens p1 = p_dens p2 ->
  add_tau_particle profile L k (Z.of_nat n) (p_dr2 p1) (p_dens p1) (p_pos p1) (p_vel p1) (p_temp p1) (p_smooth p1)
    (repeat 0 n) = Some t1 ->
  add_tau_particle profile L k (Z.of_nat n) (p_dr2 p2) (p_dens p2) (p_pos p2) (p_vel p2) (p_temp p2) (p_smooth p2)
    (repeat 0 n) = Some t2 ->
  let bin := vbox L / INR n in
  Rabs (bin * rsum t1 - bin * rsum t2) <= absorption L * column k p1 *
    (allowance bin (bfac L * sqrt (p_temp p1)) q + allowance bin (bfac L * sqrt (p_temp p2)) q).
Proof.
  intros profile L k n q p1 p2 t1 t2 H1 H2 H3 H4 H5 H6 H7 H8 H9.
  exact (same_column profile H1 L H2 H4 H5 H6 H7 k n q p1 p2 t1 t2 H8 H3 H9).
Qed.
Print Assumptions C104_moved.

(** Against the column density array of the same particle: for the top hat and for Voronoi cells the optical depth has
    seven eighths of it. *)
Theorem C104_column_density : forall profile L k (n : nat) q p tau tau' colden, k = TopHat \/ k = Voronoi ->
  (forall u, profile u 0 = exp (- (u * u))) -> voigt_fac L = 0 -> tautail L = 0 ->
  0 <= sigma_a L -> 0 < bfac L -> 0 < velfac L -> 0 < vbox L -> (0 < n)%nat -> length tau = n -> length colden = n ->
  1 <= q -> contained L k n q p ->
  add_tau_particle profile L k (Z.of_nat n) (p_dr2 p) (p_dens p) (p_pos p) (p_vel p) (p_temp p) (p_smooth p) tau = Some tau' ->
  exists colden', add_colden_particle k (vbox L) (velfac L) (Z.of_nat n) (p_dr2 p) (p_dens p) (p_pos p) (p_smooth p) colden
      = Some colden' /\
    let bin := vbox L / INR n in let A := absorption L * (rsum colden' - rsum colden) in
    Rabs (bin * (rsum tau' - rsum tau) - 7 / 8 * A) <= 7 / 8 * A * allowance bin (bfac L * sqrt (p_temp p)) q.
Proof.
  intros profile L k n q p tau tau' colden H0 H1 H2 H3 H4 H5 H6 H7 H8 H9 H10 H11 H12 H13.
  exact (against_column profile H1 L H2 H4 H5 H6 H7 k n q p tau tau' colden H0 H8 H3 H11 H9 H10 H12 H13).
Qed.
Print Assumptions C104_column_density.

(** With the tail cut off at a threshold which the pixels inside the kernel exceed. *)
Theorem C104_cut : forall profile L k (n : nat) q p tau tau', (forall u, profile u 0 = exp (- (u * u))) ->
  voigt_fac L = 0 -> 0 <= sigma_a L -> 0 < bfac L -> 0 < velfac L -> 0 < vbox L -> 0 < tautail L ->
  (0 < n)%nat -> 1 <= q -> length tau = n -> contained L k n q p ->
  let bin := vbox L / INR n in
  let vel := particle_vel L k (p_dr2 p) (p_pos p) (p_vel p) (p_smooth p) in
  let c := Zfloor (vel / bin) in let edge := velfac L * half_extent k (p_dr2 p) (p_smooth p) in
  (forall z, in_window (Z.of_nat n) c z ->
     - edge < IZR (z + 1) * bin - vel -> IZR z * bin - vel < edge ->
     tautail L <= pixel_tau profile L k n (p_dr2 p) (p_dens p) vel (p_temp p) (p_smooth p) z) ->
  add_tau_particle profile L k (Z.of_nat n) (p_dr2 p) (p_dens p) (p_pos p) (p_vel p) (p_temp p) (p_smooth p) tau = Some tau' ->
  let e := allowance bin (bfac L * sqrt (p_temp p)) q in let A := absorption L * column k p in
  A * (1 - e) - vbox L * tautail L <= bin * (rsum tau' - rsum tau) <= A * (1 + e).
Proof. exact total_cut. Qed.
Print Assumptions C104_cut.

(** The window has to hold the line: with a single pixel nothing is absorbed at all. *)
Theorem C104_one_pixel_refuted : forall profile L k dr2 dens ppos pvel temp smooth tau,
  add_tau_particle profile L k 1 dr2 dens ppos pvel temp smooth tau = Some tau.
Proof.
  intros. unfold add_tau_particle.
  match goal with |- (if ?c then _ else _) = _ => destruct c end; [reflexivity |].
  change (Z.to_nat (Z.quot 1 2)) with 0%nat. reflexivity.
Qed.
Print Assumptions C104_one_pixel_refuted.

(** The profile of the code is such a profile. *)
Example C104_profile : forall w_im fuel,
  exists profile : R -> R -> R,
    (forall u a v, FaddModel.profile w_im fuel u a = Some v -> profile u a = v) /\
    (forall u, profile u 0 = exp (- (u * u))).
Proof.
  intros w_im fuel.
  exists (fun u a => match FaddModel.profile w_im fuel u a with Some v => v | None => 0 end). split.
  - intros u a v E. rewrite E. reflexivity.
  - intros u. rewrite FaddProps.C97_gauss. reflexivity.
Qed.

(** A cubic spline particle of four pixels on 64 pixels, hydrogen-like line of width two. *)
Example C104_case : let L := mkAbs 0 1 1 0 1 64 in
  let p := mkParcel 0 5 (-3) 100 4 4 in
  contained L Cubic 64 8 p /\ 0 < column Cubic p /\
  allowance (vbox L / INR 64) (bfac L * sqrt (p_temp p)) 8 <= 1 / 200.
Proof.
  intros L p.
  assert (S4 : sqrt 4 = 2) by (replace 4 with (2 * 2) by lra; apply sqrt_square; lra).
  assert (I : INR 64 = 64) by (rewrite INR_IZR_INZ; reflexivity).
  split; [| split].
  - unfold contained, L, p. simpl. rewrite S4. repeat split; try lra; try discriminate.
    replace (4 * 4 - 0) with (4 * 4) by ring. rewrite sqrt_square by lra.
    change (2 ^ 5)%nat with 32%nat. rewrite ?I. simpl. lra.
  - unfold column, sampled, half_extent, p. cbn [p_dens p_dr2 p_smooth].
    apply Rmult_lt_0_compat; [lra |]. replace (4 * 4 - 0) with (4 * 4) by ring. rewrite sqrt_square by lra.
    assert (NN : forall q, 0 <= q -> 0 <= cubic_spline q).
    { intros q Hq. rewrite <- (proj1 (AbsorptionProofs.C12_splines_aux q Hq)). apply KernelProofs.cubic_nonneg. assumption. }
    assert (Z0 : 0 < cubic_spline 0).
    { unfold cubic_spline. rewrite !Rmax_right by lra. apply Rmult_lt_0_compat; [| lra].
      apply Rdiv_lt_0_compat; [lra | apply PI_RGT_0]. }
    unfold trapezium. replace ((4 - - (4)) / INR 8) with 1 by (simpl; field). rewrite Rmult_1_l.
    assert (NNz : forall z, 0 <= cubic_spline (sqrt (0 + z * z) / 4)).
    { intros z. apply NN. apply Rdiv_le_0_compat; [apply sqrt_pos | lra]. }
    cbn [seq Nat.sub map]. unfold rsum. cbn [fold_right].
    pose proof (NNz (- (4))) as A1. pose proof (NNz 4) as A2. pose proof (NNz (- (4) + INR 1 * 1)) as A3.
    pose proof (NNz (- (4) + INR 2 * 1)) as A4. pose proof (NNz (- (4) + INR 3 * 1)) as A5.
    pose proof (NNz (- (4) + INR 5 * 1)) as A6. pose proof (NNz (- (4) + INR 6 * 1)) as A7.
    pose proof (NNz (- (4) + INR 7 * 1)) as A8.
    assert (A0 : cubic_spline (sqrt (0 + (- (4) + INR 4 * 1) * (- (4) + INR 4 * 1)) / 4) = cubic_spline 0).
    { replace (- (4) + INR 4 * 1) with 0 by (simpl; ring). replace (0 + 0 * 0) with 0 by ring. rewrite sqrt_0.
      f_equal. field. }
    rewrite A0. lra.
  - unfold L, p. cbn [vbox bfac p_temp]. rewrite S4, I.
    pose proof (C104_allowance (64 / 64) (1 * 2) 8 ltac:(lra) ltac:(lra) ltac:(lra)) as (H & _).
    assert (/ 10 ^ 20 <= 1 / 1000).
    { apply Rle_trans with (/ 1000); [| lra]. apply Rinv_le_contravar; [lra |]. simpl. lra. }
    lra.
Qed.
