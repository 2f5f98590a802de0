(** The self-shielding of the rate network and of the gas properties: theorems. *)
From Coq Require Import Reals Lra.
From Verif Require Import RatesModel NeutralModel IoniseSpec ShieldSpec ShieldProofs.
Local Open Scope R_scope.

(** C130.  Under the same background the hydrogen in the rate network is ionised at the rate which the gas properties give for a density
    lower by a factor 1.003, at all densities and temperatures. *)
Theorem C130_agree : forall n nh t, RatesModel.selfshield n = true ->
  self_shield_corr n nh t * Rpower 10 (lg_gH0 n) = photo_rate (same_background n) (nh / 1.003) t.
Proof. exact C130_agree_aux. Qed.
Print Assumptions C130_agree.

(** C130.  So the two rates are never the same, but differ by at most 1.21%. *)
Theorem C130_close_refuted : forall n nh t, RatesModel.selfshield n = true -> 0 < nh ->
  photo_rate (same_background n) nh t < self_shield_corr n nh t * Rpower 10 (lg_gH0 n)
  <= 1.0121 * photo_rate (same_background n) nh t.
Proof. exact C130_close_aux. Qed.
Print Assumptions C130_close_refuted.

(** C130.  photo_factor scales the radiation but not the density at which gas shields itself: brightening the background by a factor in
    the network gives less ionisation than a background that is brighter by this factor. *)
Theorem C130_factor_refuted : forall n nh t f, RatesModel.selfshield n = true -> 0 < nh -> 1 < f ->
  self_shield_corr (lit n f) nh t = self_shield_corr n nh t /\
  self_shield_corr (lit n f) nh t * (f * Rpower 10 (lg_gH0 n))
  < photo_rate (Uvb (RatesModel.gray n) (f * Rpower 10 (lg_gH0 n)) (RatesModel.f_bar n)) (nh / 1.003) t.
Proof. exact C130_factor_aux. Qed.
Print Assumptions C130_factor_refuted.

Example C130_case : exists n, RatesModel.selfshield n = true /\ same_background n = Uvb 2.15e-18 (Rpower 10 (- 12)) 0.17.
Proof. exists (Network cen92 (- 12) (- 12) (- 14) 1 true true 2.15e-18 0.17 1e-7). split; reflexivity. Qed.
