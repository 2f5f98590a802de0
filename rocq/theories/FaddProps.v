(** C97, C98: the Voigt profile of a line, from the centre to the far wings. *)
From Coq Require Import Reals ZArith Lra Lia.
From Coquelicot Require Import Coquelicot.
From Coq Require Import List.
From Flocq Require Import Core.Raux.
From Verif Require AbsorptionSpec.
From Verif Require Import FaddTable FaddModel FaddSpec FaddProofs FaddProofs2 FaddProofs3 FaddProofs4 FaddProofs5 FaddProofs6 FaddProofs7.
Import ListNotations.
Local Open Scope R_scope.

(** Every evaluation ends in a number: no read past the end of the table, and no turn of the second loop of the large
    |x| branch (whose counter is off by one) is ever needed. Only the overflow of erfcx on the negative imaginary axis
    is excepted; the damping is never negative. *)
Theorem C97_ends : forall w_im x y, x <> 0 \/ - 26.7 <= y -> exists v, forall fuel, w w_im fuel x y = Value v.
Proof. exact ends_aux. Qed.
Print Assumptions C97_ends.

Example C97_ends_case : exists v, forall fuel, w (fun _ => 0) fuel 12 0.00000000001 = Value v.
Proof. apply C97_ends. left. lra. Qed.

(** The profile is the same on both sides of the line. *)
Theorem C97_even : forall w_im fuel x y, profile w_im fuel (- x) y = profile w_im fuel x y.
Proof. exact even_aux. Qed.
Print Assumptions C97_even.

(** The whole function is mirrored: the imaginary part changes sign. *)
Theorem C97_mirror : forall w_im fuel x y, (forall t, w_im (- t) = - w_im t) ->
  w w_im fuel (- x) y =
  match w w_im fuel x y with Value v => Value (fst v, - snd v) | OutOfTable => OutOfTable | Unfinished => Unfinished end.
Proof. exact mirror_aux. Qed.
Print Assumptions C97_mirror.

Example C97_mirror_case : forall t, (fun u => u * u * u) (- t) = - (fun u => u * u * u) t.
Proof. intros. cbn. ring. Qed.

(** Without damping the profile is exactly a Gaussian. *)
Theorem C97_gauss : forall w_im fuel x, profile w_im fuel x 0 = Some (exp (- (x * x))).
Proof. exact gauss_aux. Qed.
Print Assumptions C97_gauss.

(** In the outer region the value is Laplace's continued fraction with a known number of terms. *)
Theorem C97_wing : forall w_im fuel x y n, x <> 0 -> 0 < y -> outer (Rabs x) y -> terms (Rabs x) y n ->
  w w_im fuel x y = Value (laplace n (x, y)).
Proof. exact wing_aux. Qed.
Print Assumptions C97_wing.

Example C97_wing_case : outer (Rabs (-30)) 0.001 /\ terms (Rabs (-30)) 0.001 8.
Proof.
  rewrite Rabs_left by lra. split; [right; left; lra |]. right; right. split; [lra |].
  replace (INR 8) with 8 by (rewrite INR_IZR_INZ; reflexivity). split.
  - assert (4.1 <= 11.398 / (0.08254 * - (-30) + 0.1421 * 0.001 + 0.2023)); [| lra].
    apply (Rmult_le_reg_r (0.08254 * - (-30) + 0.1421 * 0.001 + 0.2023)); [lra |].
    unfold Rdiv. rewrite Rmult_assoc, Rinv_l by lra. lra.
  - assert (11.398 / (0.08254 * - (-30) + 0.1421 * 0.001 + 0.2023) < 5); [| lra].
    apply (Rmult_lt_reg_r (0.08254 * - (-30) + 0.1421 * 0.001 + 0.2023)); [lra |].
    unfold Rdiv. rewrite Rmult_assoc, Rinv_l by lra. lra.
Qed.

Example C97_wing_far : outer (Rabs 20000000) 1 /\ terms (Rabs 20000000) 1 1 /\ outer (Rabs 5000) 1 /\ terms (Rabs 5000) 1 2.
Proof.
  rewrite !Rabs_pos_eq by lra. unfold outer, terms.
  repeat split; try (right; left; lra); [left; split; [lra | reflexivity] | right; left; split; [lra | reflexivity]].
Qed.

(** There it is positive, and at most 1/(sqrt(pi) y). *)
Theorem C97_positive : forall w_im fuel x y, x <> 0 -> 0 < y -> outer (Rabs x) y ->
  exists v, profile w_im fuel x y = Some v /\ 0 < v <= isp / y.
Proof. exact positive_aux. Qed.
Print Assumptions C97_positive.

(** Ten thermal widths or more from the centre it is positive whatever the damping. *)
Theorem C97_far : forall w_im fuel x y, 0 <= y -> 10 <= Rabs x ->
  exists v, profile w_im fuel x y = Some v /\ 0 < v.
Proof. exact far_aux. Qed.
Print Assumptions C97_far.

Example C97_far_case : 0 <= 0.00000000001 /\ 10 <= Rabs (-12).
Proof. rewrite Rabs_left by lra. lra. Qed.

(** The damping wings: within a relative 14/(x^2 + y^2) of the Lorentz profile. *)
Theorem C97_lorentz : forall w_im fuel x y, 0 < y -> 28 < Rabs x \/ (28 < y /\ x <> 0) ->
  exists v, profile w_im fuel x y = Some v /\
            Rabs (v - lorentz x y) <= 14 / (x * x + y * y) * lorentz x y.
Proof. exact lorentz_aux. Qed.
Print Assumptions C97_lorentz.

Example C97_lorentz_case : 0 < 0.001 /\ 28 < Rabs 100.
Proof. rewrite Rabs_pos_eq by lra. lra. Qed.

(** The undamped profile is one of those for which the optical depth of a particle may be cut off (C11). *)
Theorem C97_bell : forall w_im fuel, AbsorptionSpec.bell
  (fun u => match profile w_im fuel u 0 with Some v => v | None => 0 end).
Proof.
  intros w_im fuel. split.
  - intros u. rewrite gauss_aux. left. apply exp_pos.
  - intros u v H. rewrite !gauss_aux. apply exp_mono.
    assert (Hu : u * u = Rabs u * Rabs u) by (unfold Rabs; destruct (Rcase_abs u); ring).
    assert (Hv : v * v = Rabs v * Rabs v) by (unfold Rabs; destruct (Rcase_abs v); ring).
    rewrite Hu, Hv. pose proof (Rabs_pos u). nra.
Qed.
Print Assumptions C97_bell.

(** At the line centre the profile is exp(y^2) erfc(y) within 1e-12, for every damping y. *)
Theorem C98_centre : forall w_im fuel g y, is_erfcx g -> 0 <= y ->
  exists v, profile w_im fuel 0 y = Some v /\ 0 < v /\ Rabs (v - g y) <= 0.000000000001.
Proof. exact centre_aux. Qed.
Print Assumptions C98_centre.

(** There is such a function g, so that C98_centre speaks about something. *)
Theorem C98_truth : exists g, is_erfcx g.
Proof. exact truth_exists. Qed.
Print Assumptions C98_truth.

(** The constant used for 1/sqrt(pi) is right to 1e-16. *)
Theorem C98_constant : Rabs (1 / sqrt PI - isp) <= 0.0000000000000001.
Proof. exact isp_close. Qed.
Print Assumptions C98_constant.
