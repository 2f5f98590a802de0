(** Property C83: the temperature-density relation. *)
From Coq Require Import List Bool Reals Lra Lia Permutation.
From Verif Require Import QuantModel GaspropModel GaspropSpec TempdensModel TempdensSpec.
From Verif Require GaspropProofs TempdensProofs TempdensProofs2.
Import ListNotations.
Local Open Scope R_scope.

(** A snapshot in any units whose gas obeys T = T0 (rho / mean)^(gamma - 1) gives back T0 and gamma, with any routine that finds
    a minimum, as soon as two particles of different densities are in the range of the fit. *)
Theorem C83_powerlaw : forall leastsq u h z omegab ds rhos T0 gamma rho rho', minimises leastsq ->
  good_units u -> 0 < h -> -1 < z -> 0 < omegab -> 0 < T0 ->
  Forall2 (stored u h z) ds rhos -> Forall (fun rho => 0 < rho) rhos ->
  let delta := fun rho => rho / mean_baryons h z omegab in
  let temp := fun rho => T0 * Rpower (delta rho) (gamma - 1) in
  In rho rhos -> In rho' rhos -> rho <> rho' ->
  1 < delta rho < 10 -> 1 < delta rho' < 10 -> Rpower 10 0.1 < temp rho < 1e5 -> Rpower 10 0.1 < temp rho' < 1e5 ->
  snd (fit_td_rel leastsq true u h z omegab ds (map temp rhos)) = Fit T0 gamma.
Proof. exact TempdensProofs2.C83_powerlaw_aux. Qed.
Print Assumptions C83_powerlaw.

(** With temperatures of the snapshot, both results depend on the overdensities of the gas only. *)
Theorem C83_overdensity : forall leastsq u h z omegab ds rhos temps, good_units u -> 0 < h -> -1 < z -> 0 < omegab ->
  Forall2 (stored u h z) ds rhos -> Forall (fun rho => 0 < rho) rhos ->
  let delta := map (fun rho => rho / mean_baryons h z omegab) rhos in
  let log := map (fun x => ln x / ln 10) in
  fit_td_rel leastsq true u h z omegab ds temps =
  (get_temp_meandensity (combine delta temps), fit_temp_dens_relation leastsq (combine (log delta) (log temps))).
Proof. exact TempdensProofs2.C83_overdensity_aux. Qed.
Print Assumptions C83_overdensity.

(** With temperatures of the rate network the overdensities are those of a snapshot in kpc/h and 10^10 solar masses/h, whatever the
    units are; ... *)
Theorem C83_network_refuted : forall leastsq u h z omegab ds rhos temps, good_units u -> 0 < h -> -1 < z -> 0 < omegab ->
  Forall2 (stored u h z) ds rhos -> Forall (fun rho => 0 < rho) rhos ->
  let k := (1.98892e43 / 3.085678e21 ^ 3) / (u_mass u / u_length u ^ 3) in
  let delta := map (fun rho => k * (rho / mean_baryons h z omegab)) rhos in
  let log := map (fun x => ln x / ln 10) in
  fit_td_rel leastsq false u h z omegab ds temps =
  (get_temp_meandensity (combine delta temps), fit_temp_dens_relation leastsq (combine (log delta) (log temps))).
Proof. exact TempdensProofs2.C83_network_aux. Qed.
Print Assumptions C83_network_refuted.

(** ... so for a snapshot in Mpc/h whose gas is nowhere below 1e-8 of the mean there is nothing to fit and the median is a NaN. *)
Theorem C83_mpc_refuted : forall leastsq h z omegab ds rhos temps, 0 < h -> -1 < z -> 0 < omegab ->
  Forall2 (stored (mkUnits 3.085678e24 1.98892e43 1e5) h z) ds rhos ->
  Forall (fun rho => 1e-8 * mean_baryons h z omegab <= rho) rhos ->
  fit_td_rel leastsq false (mkUnits 3.085678e24 1.98892e43 1e5) h z omegab ds temps = (None, TypeErr).
Proof. exact TempdensProofs2.C83_mpc_aux. Qed.
Print Assumptions C83_mpc_refuted.

(** The fit is the one best line through the points in range, ... *)
Theorem C83_fit : forall leastsq pts sel p q, minimises leastsq -> restricted pts sel -> In p sel -> In q sel -> fst p <> fst q ->
  exists a b, best_line sel a b /\ fit_temp_dens_relation leastsq pts = Fit (Rpower 10 a) (b + 1).
Proof. exact TempdensProofs.C83_fit_aux. Qed.
Print Assumptions C83_fit.

(** ... which is that with residuals of mean zero and uncorrelated with the density. *)
Theorem C83_normal : forall pts p q a b, In p pts -> In q pts -> fst p <> fst q ->
  (best_line pts a b <-> fold_right (fun p s => snd p - (a + b * fst p) + s) 0 pts = 0 /\
                         fold_right (fun p s => (snd p - (a + b * fst p)) * fst p + s) 0 pts = 0).
Proof. exact TempdensProofs.C83_normal_aux. Qed.
Print Assumptions C83_normal.

(** It does not depend on the order of the particles or on the routine. *)
Theorem C83_order : forall leastsq leastsq' pts pts' p q, minimises leastsq -> minimises leastsq' -> Permutation pts pts' ->
  In p pts -> In q pts -> in_range p -> in_range q -> fst p <> fst q ->
  fit_temp_dens_relation leastsq pts = fit_temp_dens_relation leastsq' pts'.
Proof. exact TempdensProofs.C83_order_aux. Qed.
Print Assumptions C83_order.

(** Gas hotter by a factor, with the same particles in range, has T0 larger by that factor and the same gamma. *)
Theorem C83_heated : forall leastsq pts p q k, minimises leastsq -> 0 < k ->
  (forall r, In r pts -> (in_range r <-> in_range (fst r, snd r + ln k / ln 10))) ->
  In p pts -> In q pts -> in_range p -> in_range q -> fst p <> fst q ->
  exists T0 gamma, fit_temp_dens_relation leastsq pts = Fit T0 gamma /\
    fit_temp_dens_relation leastsq (map (fun r => (fst r, snd r + ln k / ln 10)) pts) = Fit (k * T0) gamma.
Proof. exact TempdensProofs.C83_heated_aux. Qed.
Print Assumptions C83_heated.

(** Fewer than two particles in range: an error. *)
Theorem C83_few : forall leastsq pts sel, restricted pts sel -> (length sel < 2)%nat ->
  fit_temp_dens_relation leastsq pts = TypeErr.
Proof. exact TempdensProofs.C83_few_aux. Qed.
Print Assumptions C83_few.

(** Particles of one density do not fix gamma: any value is the outcome for some routine that finds a minimum. *)
Theorem C83_degenerate_refuted : forall x y y' gamma, in_range (x, y) -> in_range (x, y') ->
  exists leastsq T0, minimises leastsq /\ fit_temp_dens_relation leastsq [(x, y); (x, y')] = Fit T0 gamma.
Proof. exact TempdensProofs.C83_one_aux. Qed.
Print Assumptions C83_degenerate_refuted.

(** The temperature at the mean density is the median of the temperatures, in any order, of the gas within five per cent of it. *)
Theorem C83_median : forall pts near, Permutation near (map snd (filter (fun p => near_mean (fst p)) pts)) ->
  forall m, get_temp_meandensity pts = Some m <-> near <> [] /\ is_median near m.
Proof. exact TempdensProofs2.C83_median_aux. Qed.
Print Assumptions C83_median.

(** ** The hypotheses can be met *)

Example C83_routine : minimises TempdensProofs.ols.
Proof. exact TempdensProofs.ols_minimises. Qed.

(** Gas of 2 and 4 times the mean density in a snapshot with the default units. *)
Example C83_gas : good_units default_units /\
  let m := mean_baryons 0.7 3 0.045 in
  0 < m /\ (exists d d', Forall2 (stored default_units 0.7 3) [d; d'] [2 * m; 4 * m]) /\
  1 < 2 * m / m < 10 /\ 1 < 4 * m / m < 10 /\ 2 * m <> 4 * m /\ Forall (fun rho => 1e-8 * m <= rho) [2 * m; 4 * m].
Proof.
  assert (U : good_units default_units) by (unfold good_units, default_units; cbn [u_length u_mass u_vel]; lra).
  split; [exact U|]. assert (MP := TempdensProofs2.mean_pos 0.7 3 0.045 ltac:(lra) ltac:(lra) ltac:(lra)).
  set (m := mean_baryons 0.7 3 0.045) in *. clearbody m. cbv zeta. split; [exact MP|]. split.
  - do 2 eexists. repeat constructor; apply GaspropProofs.stored_exists; (exact U || lra).
  - replace (2 * m / m) with 2 by (field; lra). replace (4 * m / m) with 4 by (field; lra). repeat split; try lra.
    repeat constructor; lra.
Qed.

Example C83_points : restricted [(0.5, 4); (2, 4); (0.7, 4.2)] [(0.5, 4); (0.7, 4.2)] /\
  get_temp_meandensity [(1, 30); (1.2, 5); (0.98, 10)] = Some 20.
Proof.
  split.
  - apply restricted_in; [unfold in_range; cbn [fst snd]; lra|]. apply restricted_out; [unfold in_range; cbn [fst snd]; lra|].
    apply restricted_in; [unfold in_range; cbn [fst snd]; lra|]. constructor.
  - unfold get_temp_meandensity. cbn [filter fst snd]. unfold ltb.
    destruct (Rlt_dec 0.95 1); [|lra]. destruct (Rlt_dec 1 1.05); [|lra]. destruct (Rlt_dec 0.95 1.2); [|lra]. destruct (Rlt_dec 1.2 1.05); [lra|].
    destruct (Rlt_dec 0.95 0.98); [|lra]. destruct (Rlt_dec 0.98 1.05); [|lra]. cbn [andb map snd]. unfold median, sort. cbn [fold_right insert].
    destruct (Rle_dec 30 10); [lra|]. cbn. f_equal. lra.
Qed.
