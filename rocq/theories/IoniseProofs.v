(** How the rate tables respond to temperature. *)
From Coq Require Import Reals Lra Lia.
From Coquelicot Require Import Coquelicot.
From Verif Require Import RatesModel RatesSpec RatesProofs.
Local Open Scope R_scope.

Lemma incr : forall (f df : R -> R) a b, a <= b ->
  (forall x, a <= x <= b -> is_derive f x (df x)) -> (forall x, a <= x <= b -> 0 <= df x) -> f a <= f b.
Proof.
  intros f df a b AB D P.
  destruct (MVT_gen f a b df) as (c & C & E).
  - intros x. rewrite Rmin_left, Rmax_right by lra. intros. apply D. lra.
  - intros x. rewrite Rmin_left, Rmax_right by lra. intros X.
    apply continuity_pt_filterlim. apply (ex_derive_continuous f). exists (df x). apply D. lra.
  - rewrite Rmin_left, Rmax_right in C by lra. specialize (P c C).
    assert (0 <= df c * (b - a)) by (apply Rmult_le_pos; lra). lra.
Qed.

Lemma div_anti : forall c d1 d2, 0 <= c -> 0 < d2 -> d2 <= d1 -> c / d1 <= c / d2.
Proof.
  intros. unfold Rdiv. apply Rmult_le_compat_l; auto. apply Rinv_le_contravar; auto.
Qed.

Lemma div_anti_lt : forall c d1 d2, 0 < c -> 0 < d2 -> d2 < d1 -> c / d1 < c / d2.
Proof.
  intros. unfold Rdiv. apply Rmult_lt_compat_l; auto. apply Rinv_lt_contravar; auto. apply Rmult_lt_0_compat; lra.
Qed.

Lemma div_incr : forall c d t, 0 < d -> c <= t -> c / d <= t / d.
Proof. intros. unfold Rdiv. apply Rmult_le_compat_r; auto. left; now apply Rinv_0_lt_compat. Qed.

Lemma div_incr_lt : forall c d t, 0 < d -> c < t -> c / d < t / d.
Proof. intros. unfold Rdiv. apply Rmult_lt_compat_r; auto. now apply Rinv_0_lt_compat. Qed.

Lemma mul_mono : forall a b c d, 0 <= a -> 0 <= c -> a <= b -> c <= d -> a * c <= b * d.
Proof. intros. now apply Rmult_le_compat. Qed.

Lemma mul_mono_lt : forall a b c d, 0 < a -> 0 < c -> a < b -> c <= d -> a * c < b * d.
Proof.
  intros. apply Rlt_le_trans with (b * c). apply Rmult_lt_compat_r; auto. apply Rmult_le_compat_l; lra.
Qed.

Lemma Rpower_incr : forall a b e, 0 < a -> a <= b -> 0 <= e -> Rpower a e <= Rpower b e.
Proof. intros. apply Rle_Rpower_l; auto. Qed.

Lemma exp_le : forall a b, a <= b -> exp a <= exp b.
Proof. intros a b [H | ->]; [left; now apply exp_increasing | lra]. Qed.

Lemma ln_le' : forall a b, 0 < a -> a <= b -> ln a <= ln b.
Proof. intros a b A [H | ->]; [left; now apply ln_increasing | lra]. Qed.

Lemma ln_quot : forall a b, 0 < a -> 0 < b -> ln (a / b) = ln a - ln b.
Proof.
  intros. unfold Rdiv. rewrite ln_mult, ln_Rinv; auto. now apply Rinv_0_lt_compat.
Qed.

(** ** Recombination *)

Lemma verner_anti : forall aa bb t0 t1 t t', 0 < aa -> 0 <= 1 - bb -> 0 <= 1 + bb -> 0 < t0 -> 0 < t1 ->
  0 < t' -> t' < t -> verner_fit t aa bb t0 t1 < verner_fit t' aa bb t0 t1.
Proof.
  intros aa bb t0 t1 t t' A B1 B2 T0 T1 T T'. unfold verner_fit.
  assert (S0 : 0 < sqrt (t' / t0) < sqrt (t / t0)).
  { split. apply sqrt_lt_R0. now apply Rdiv_pos. apply sqrt_lt_1_alt. split.
    left; now apply Rdiv_pos. now apply div_incr_lt. }
  assert (S1 : 0 < sqrt (t' / t1) <= sqrt (t / t1)).
  { split. apply sqrt_lt_R0. now apply Rdiv_pos. apply sqrt_le_1_alt. apply div_incr; lra. }
  pose proof (Rpower_pos (1 + sqrt (t' / t0)) (1 - bb)) as P0.
  pose proof (Rpower_pos (1 + sqrt (t' / t1)) (1 + bb)) as P1.
  pose proof (Rpower_incr (1 + sqrt (t' / t0)) (1 + sqrt (t / t0)) (1 - bb) ltac:(lra) ltac:(lra) B1).
  pose proof (Rpower_incr (1 + sqrt (t' / t1)) (1 + sqrt (t / t1)) (1 + bb) ltac:(lra) ltac:(lra) B2).
  apply div_anti_lt; auto. repeat apply Rmult_lt_0_compat; tauto.
  apply mul_mono_lt; try lra; try tauto. apply Rmult_lt_0_compat; tauto.
  apply mul_mono_lt; try lra; tauto.
Qed.

Lemma cen_alphaHp_anti : forall t t', 0 < t' -> t' < t -> cen_alphaHp t < cen_alphaHp t'.
Proof.
  intros t t' T T'. unfold cen_alphaHp.
  assert (S0 : 0 < sqrt t' < sqrt t).
  { split. now apply sqrt_lt_R0. apply sqrt_lt_1_alt. lra. }
  pose proof (Rpower_pos (t' / 1000) 0.2) as P0.
  pose proof (Rpower_pos (t' / 1e6) 0.7) as P1.
  pose proof (Rpower_incr (t' / 1000) (t / 1000) 0.2 ltac:(lra) ltac:(lra) ltac:(lra)).
  pose proof (Rpower_incr (t' / 1e6) (t / 1e6) 0.7 ltac:(lra) ltac:(lra) ltac:(lra)).
  set (a := sqrt t) in *. set (a' := sqrt t') in *.
  set (b := Rpower (t / 1000) 0.2) in *. set (b' := Rpower (t' / 1000) 0.2) in *.
  set (c := Rpower (t / 1e6) 0.7) in *. set (c' := Rpower (t' / 1e6) 0.7) in *.
  assert (X : 8.4e-11 / a / b < 8.4e-11 / a' / b').
  { apply Rle_lt_trans with (8.4e-11 / a / b').
    apply div_anti; try lra. left; apply Rdiv_pos; lra.
    apply div_incr_lt; auto. apply div_anti_lt; lra. }
  assert (0 < 8.4e-11 / a / b) by (apply Rdiv_pos; [apply Rdiv_pos |]; lra).
  apply Rle_lt_trans with (8.4e-11 / a / b / (1 + c')). apply div_anti; lra. apply div_incr_lt; lra.
Qed.

Lemma cen_alphaHep_anti : forall t t', 0 < t' -> t' < t -> cen_alphaHep t <= cen_alphaHep t'.
Proof.
  intros. unfold cen_alphaHep. apply div_anti. lra. apply Rpower_pos. apply Rpower_incr; lra.
Qed.

Lemma verner_alphaHep_low : forall t, t < 6e5 ->
  verner_alphaHep t = verner_fit t 3.294e-11 0.6910 1.554e+01 3.676e+07.
Proof.
  intros t T. unfold verner_alphaHep. cbv zeta. unfold ltb.
  destruct (Rlt_dec t (7e5 - 1e5)); [|lra]. destruct (Rlt_dec (7e5 + 1e5) t); [lra|].
  destruct (Rlt_dec (7e5 - 1e5) t); [lra|]. cbn [b2r]. lra.
Qed.

(** *** He++ of Badnell: the exponent of the fit depends on the temperature *)

Lemma e_big : 2 < exp 1.
Proof. pose proof exp_ineq1 1 ltac:(lra). lra. Qed.

Lemma v_exp : forall v, 2 * v <= exp v.
Proof.
  intros v. replace v with (1 + (v - 1)) at 2 by ring. rewrite exp_plus.
  pose proof e_big. pose proof (exp_pos (v - 1)).
  assert (v <= exp (v - 1)).
  { destruct (Req_dec (v - 1) 0) as [E | E]. rewrite E, exp_0. lra.
    pose proof (exp_ineq1 (v - 1) E). lra. }
  assert (2 * exp (v - 1) <= exp 1 * exp (v - 1)) by (apply Rmult_le_compat_r; lra). lra.
Qed.

Lemma exp_log_lip : forall v1 v2, 0 < v1 -> v1 <= v2 -> exp (- v1) - exp (- v2) <= / 2 * ln (v2 / v1).
Proof.
  intros v1 v2 V1 V2.
  assert (H : exp (- v1) + / 2 * ln v1 <= exp (- v2) + / 2 * ln v2).
  { apply (incr (fun v => exp (- v) + / 2 * ln v) (fun v => - exp (- v) + / 2 * / v)); auto.
    - intros x X. auto_derive. lra. field. lra.
    - intros x X. pose proof (v_exp x). rewrite exp_Ropp.
      rewrite <- Rinv_mult.
      pose proof (Rinv_le_contravar (2 * x) (exp x) ltac:(lra) ltac:(lra)). lra. }
  rewrite ln_quot by lra. lra.
Qed.

Lemma exp12 : 4096 <= exp 12.
Proof.
  replace 12 with (1+1+1+1+1+1+1+1+1+1+1+1) by lra. rewrite !exp_plus. pose proof e_big.
  set (e := exp 1) in *. clearbody e.
  assert (Q : 4 <= e * e) by nra.
  replace (e * e * e * e * e * e * e * e * e * e * e * e) with (((e * e) * (e * e)) * (((e * e) * (e * e)) * ((e * e) * (e * e)))) by ring.
  set (q := e * e) in *. clearbody q. assert (Q2 : 16 <= q * q) by nra. set (p := q * q) in *. clearbody p.
  assert (Q3 : 256 <= p * p) by nra. apply Rle_trans with (16 * 256). lra. apply Rmult_le_compat; lra.
Qed.

Lemma lowcharge_anti : forall t t', 0 < t' -> t' < t -> t <= 1e6 ->
  lowcharge_fit t 5.235e-11 0.6988 0.0829 7.301 4.475e6 1.682e5
  <= lowcharge_fit t' 5.235e-11 0.6988 0.0829 7.301 4.475e6 1.682e5.
Proof.
  intros t t' T T' M. unfold lowcharge_fit, verner_fit.
  set (v := 1.682e5 / t). set (v' := 1.682e5 / t').
  replace (- (1.682e5) / t) with (- v) by (unfold v; lra).
  replace (- (1.682e5) / t') with (- v') by (unfold v'; lra).
  assert (V : 0 < v) by (apply Rdiv_pos; lra).
  assert (V' : v <= v') by (apply div_anti; lra).
  pose proof (exp_log_lip v v' V V') as EL.
  assert (Q : v' / v = t / t') by (unfold v, v'; field; lra). rewrite Q in EL.
  pose proof (exp_le (- v') (- v) ltac:(lra)) as EM.
  pose proof (exp_le (- v) 0 ltac:(lra)) as E1. rewrite exp_0 in E1. pose proof (exp_pos (- v')) as E0.
  set (B := 0.6988 + 0.0829 * exp (- v)). set (B' := 0.6988 + 0.0829 * exp (- v')).
  assert (S0 : 0 < sqrt (t' / 7.301) < sqrt (t / 7.301)).
  { split. apply sqrt_lt_R0. lra. apply sqrt_lt_1_alt. lra. }
  assert (S1 : 0 < sqrt (t' / 4.475e6) <= sqrt (t / 4.475e6)).
  { split. apply sqrt_lt_R0. lra. apply sqrt_le_1_alt. lra. }
  assert (S2 : sqrt (t' / 7.301) <= 4095).
  { replace 4095 with (sqrt (4095 * 4095)) by (apply sqrt_square; lra). apply sqrt_le_1_alt. lra. }
  assert (LS : ln (sqrt (t / 7.301)) - ln (sqrt (t' / 7.301)) = / 2 * ln (t / t')).
  { rewrite <- !Rpower_sqrt by lra. unfold Rpower. rewrite !ln_exp.
    rewrite (ln_quot t 7.301), (ln_quot t' 7.301), (ln_quot t t') by lra. lra. }
  apply div_anti. lra. repeat apply Rmult_lt_0_compat; try apply Rpower_pos; lra.
  set (s := sqrt (t / 7.301)) in *. set (s' := sqrt (t' / 7.301)) in *.
  set (r := sqrt (t / 4.475e6)) in *. set (r' := sqrt (t' / 4.475e6)) in *.
  replace s' with (exp (ln s')) at 1 by (apply exp_ln; lra).
  replace s with (exp (ln s)) at 1 by (apply exp_ln; lra).
  unfold Rpower. rewrite <- !exp_plus. apply exp_le.
  pose proof (ln_le' (1 + s') (1 + s) ltac:(lra) ltac:(lra)) as L0.
  pose proof (ln_le' (1 + r') (1 + r) ltac:(lra) ltac:(lra)) as L1.
  assert (L2 : ln (1 + s') <= 12).
  { rewrite <- (ln_exp 12). apply ln_le'. lra. pose proof exp12. lra. }
  assert (L3 : 0 <= ln (1 + r')) by (rewrite <- ln_1; apply ln_le'; lra).
  assert (L4 : 0 <= ln (1 + s')) by (rewrite <- ln_1; apply ln_le'; lra).
  set (x := ln (1 + s)) in *. set (x' := ln (1 + s')) in *. set (y := ln (1 + r)) in *. set (y' := ln (1 + r')) in *.
  assert (LT : 0 <= ln (t / t')) by lra.
  assert (BB : B' <= B <= 1) by (unfold B, B'; lra).
  assert (DB : B - B' <= 0.0829 * (/ 2 * ln (t / t'))) by (unfold B, B'; lra).
  assert (B0 : 0 <= B') by (unfold B'; lra).
  assert (K : (B - B') * x' <= (0.0829 * (/ 2 * ln (t / t'))) * 12).
  { apply Rmult_le_compat; lra. }
  assert (K1 : 0 <= (1 - B) * (x - x')) by (apply Rmult_le_pos; lra).
  assert (K2 : 0 <= (1 + B) * (y - y')) by (apply Rmult_le_pos; lra).
  assert (K3 : 0 <= (B - B') * y') by (apply Rmult_le_pos; lra).
  lra.
Qed.

(** ** Collisions *)

Lemma cen_collisional_incr : forall c b t t', 0 < c -> 0 < b -> 0 < t' -> t' < t ->
  cen_collisional c b t' <= cen_collisional c b t.
Proof.
  intros c b t t' C B T T'. unfold cen_collisional.
  assert (E : exp (- b / t') <= exp (- b / t)).
  { apply exp_le. replace (- b / t') with (- (b / t')) by lra. replace (- b / t) with (- (b / t)) by lra.
    pose proof (div_anti b t t' ltac:(lra) T ltac:(lra)). lra. }
  pose proof (exp_pos (- b / t')).
  rewrite !(sqrt_div_alt _ 1e5) by lra.
  assert (K : 0 < sqrt 1e5) by (apply sqrt_lt_R0; lra).
  assert (S0 : 0 < sqrt t' < sqrt t).
  { split. now apply sqrt_lt_R0. apply sqrt_lt_1_alt. lra. }
  set (k := sqrt 1e5) in *. set (s := sqrt t) in *. set (s' := sqrt t') in *.
  assert (X : s' / (1 + s' / k) <= s / (1 + s / k)).
  { replace (s' / (1 + s' / k)) with (k - k * (k / (k + s'))) by (field; lra).
    replace (s / (1 + s / k)) with (k - k * (k / (k + s))) by (field; lra).
    pose proof (div_anti k (k + s) (k + s') ltac:(lra) ltac:(lra) ltac:(lra)).
    assert (k * (k / (k + s)) <= k * (k / (k + s'))) by (apply Rmult_le_compat_l; lra). lra. }
  assert (0 < s' / k) by (apply Rdiv_pos; lra).
  assert (0 < s' / (1 + s' / k)) by (apply Rdiv_pos; lra).
  replace (c * s' * exp (- b / t') / (1 + s' / k)) with (c * (s' / (1 + s' / k) * exp (- b / t'))) by (field; lra).
  assert (0 < s / k) by (apply Rdiv_pos; lra).
  replace (c * s * exp (- b / t) / (1 + s / k)) with (c * (s / (1 + s / k) * exp (- b / t))) by (field; lra).
  apply Rmult_le_compat_l. lra. apply mul_mono; lra.
Qed.

Lemma voronov_body : forall P X K K' u v, 0 <= P -> 0 < X -> 0 < u -> u <= v ->
  (P = 0 /\ K' = K \/ K' = K + / 2) ->
  (forall w, u <= w -> K' / w <= 1 / (X + w) + 1) ->
  (1 + P * sqrt v) / (X + v) * Rpower v K * exp (- v) <= (1 + P * sqrt u) / (X + u) * Rpower u K * exp (- u).
Proof.
  intros P X K K' u v HP HX U UV HK D.
  assert (M : ln (X + u) + u - K' * ln u <= ln (X + v) + v - K' * ln v).
  { apply (incr (fun w => ln (X + w) + w - K' * ln w) (fun w => / (X + w) + 1 - K' * / w)); auto.
    - intros w W. auto_derive. lra. field. lra.
    - intros w W. specialize (D w ltac:(lra)). lra. }
  assert (SU : 0 < sqrt u <= sqrt v). { split. now apply sqrt_lt_R0. now apply sqrt_le_1_alt. }
  assert (N : forall w, 0 < w -> (1 + P * sqrt w) / (X + w) * Rpower w K * exp (- w)
     = ((1 + P * sqrt w) * Rpower w (K - K')) * exp (- (ln (X + w) + w - K' * ln w))).
  { intros w W. unfold Rpower.
    replace (exp (- (ln (X + w) + w - K' * ln w))) with (/ (X + w) * exp (- w) * exp (K' * ln w)).
    2: { rewrite <- (exp_ln (X + w)) at 1 by lra. rewrite <- exp_Ropp, <- !exp_plus. f_equal. lra. }
    replace (exp (K * ln w)) with (exp ((K - K') * ln w) * exp (K' * ln w)).
    2: { rewrite <- exp_plus. f_equal. lra. }
    unfold Rdiv. ring. }
  rewrite !N by lra.
  pose proof (exp_le (- (ln (X + v) + v - K' * ln v)) (- (ln (X + u) + u - K' * ln u)) ltac:(lra)) as E.
  assert (PU : 0 <= P * sqrt u) by (apply Rmult_le_pos; lra).
  assert (PV : P * sqrt u <= P * sqrt v) by (apply Rmult_le_compat_l; lra).
  apply mul_mono; auto.
  - apply Rmult_le_pos. lra. left; apply Rpower_pos.
  - left; apply exp_pos.
  - destruct HK as [[-> ->] | ->].
    + replace (K - K) with 0 by ring. rewrite !Rpower_O by lra. lra.
    + replace (K - (K + / 2)) with (- / 2) by ring. rewrite !Rpower_Ropp, !Rpower_sqrt by lra.
      rewrite !Rmult_plus_distr_r, !Rmult_assoc, !Rinv_r by lra.
      pose proof (Rinv_le_contravar (sqrt u) (sqrt v) ltac:(lra) ltac:(lra)). lra.
Qed.

Lemma voronov_incr : forall dE P A X K K' w0 t t', 0 < dE -> 0 <= P -> 0 < A -> 0 < X -> 0 < t' -> t' < t ->
  (P = 0 /\ K' = K \/ K' = K + / 2) -> 0 < w0 -> w0 * (8.61734e-5 * t) <= dE ->
  (forall w, w0 <= w -> K' / w <= 1 / (X + w) + 1) ->
  voronov_fit t' dE P A X K <= voronov_fit t dE P A X K.
Proof.
  intros dE P A X K K' w0 t t' HE HP HA HX T T' HK W0 HT D. unfold voronov_fit. cbv zeta.
  set (u := dE / (8.61734e-5 * t)). set (v := dE / (8.61734e-5 * t')).
  assert (U : w0 <= u).
  { unfold u. set (q := 8.61734e-5 * t) in *. assert (0 < q) by (unfold q; lra). apply Rmult_le_reg_r with q. lra.
    replace (dE / q * q) with dE by (field; lra). lra. }
  assert (UV : u <= v) by (unfold u, v; apply div_anti; lra).
  pose proof (voronov_body P X K K' u v HP HX ltac:(lra) UV HK ltac:(intros; apply D; lra)) as B.
  replace (A * (1 + P * sqrt v) / (X + v) * Rpower v K * exp (- v))
    with (A * ((1 + P * sqrt v) / (X + v) * Rpower v K * exp (- v))) by (field; lra).
  replace (A * (1 + P * sqrt u) / (X + u) * Rpower u K * exp (- u))
    with (A * ((1 + P * sqrt u) / (X + u) * Rpower u K * exp (- u))) by (field; lra).
  apply Rmult_le_compat_l; lra.
Qed.

Lemma rational : forall K X w0, 0 < X -> 0 < w0 -> 0 <= X + 1 - K -> 0 <= K -> K * X <= w0 * w0 + (X + 1 - K) * w0 ->
  forall w, w0 <= w -> K / w <= 1 / (X + w) + 1.
Proof.
  intros K X w0 HX W0 H HK C w W.
  assert (w0 * w0 <= w * w) by (apply Rmult_le_compat; lra).
  assert ((X + 1 - K) * w0 <= (X + 1 - K) * w) by (apply Rmult_le_compat_l; lra).
  apply Rmult_le_reg_r with (w * (X + w)). apply Rmult_lt_0_compat; lra.
  replace (K / w * (w * (X + w))) with (K * (X + w)) by (field; lra).
  replace ((1 / (X + w) + 1) * (w * (X + w))) with (w + w * (X + w)) by (field; lra). lra.
Qed.

Lemma voronov_H0 : forall t t', 0 < t' -> t' < t -> t <= 1e6 ->
  voronov_fit t' 13.6 0 0.291e-07 0.232 0.39 <= voronov_fit t 13.6 0 0.291e-07 0.232 0.39.
Proof.
  intros. apply (voronov_incr _ _ _ _ _ 0.39 0.15); try lra. apply rational; lra.
Qed.
Lemma voronov_He0 : forall t t', 0 < t' -> t' < t -> t <= 1e6 ->
  voronov_fit t' 24.6 0 0.175e-07 0.180 0.35 <= voronov_fit t 24.6 0 0.175e-07 0.180 0.35.
Proof.
  intros. apply (voronov_incr _ _ _ _ _ 0.35 0.28); try lra. apply rational; lra.
Qed.
Lemma voronov_Hep : forall t t', 0 < t' -> t' < t -> t <= 1e6 ->
  voronov_fit t' 54.4 1 0.205e-08 0.265 0.25 <= voronov_fit t 54.4 1 0.205e-08 0.265 0.25.
Proof.
  intros. apply (voronov_incr _ _ _ _ _ 0.75 0.6); try lra. apply rational; lra.
Qed.
