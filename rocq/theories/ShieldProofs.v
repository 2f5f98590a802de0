(** Proofs comparing the self-shielding of the rate network (RatesModel) with that of the gas properties (NeutralModel). *)
From Coq Require Import Reals Lra.
From Verif Require Import RatesModel NeutralModel NeutralProofs IoniseSpec ShieldSpec.
Local Open Scope R_scope.

Lemma dens_same : forall n t, RatesModel.self_shield_dens n t = NeutralModel.self_shield_dens (same_background n) t.
Proof. intros n t. reflexivity. Qed.

Lemma C130_agree_aux : forall n nh t, RatesModel.selfshield n = true ->
  self_shield_corr n nh t * Rpower 10 (lg_gH0 n) = photo_rate (same_background n) (nh / 1.003) t.
Proof.
  intros n nh t H. unfold self_shield_corr. rewrite H, dens_same. cbv zeta.
  replace (nh / (1.003 * NeutralModel.self_shield_dens (same_background n) t))
    with (nh / 1.003 / NeutralModel.self_shield_dens (same_background n) t).
  - reflexivity.
  - pose proof (shield_dens_pos (same_background n) t). set (c := 1.003). assert (0 < c) by (unfold c; lra). clearbody c. field. lra.
Qed.

Lemma Rpower_le_neg : forall x y e, 0 < x <= y -> e < 0 -> Rpower y e <= Rpower x e.
Proof.
  intros x y e (H1 & [H2|H2]) He; [left; apply Rpower_decr; [assumption|split; assumption]|subst; lra].
Qed.

Lemma inv_power : forall c, 0 < c -> / c = Rpower c (Ropp 1).
Proof. intros c H. rewrite Rpower_Ropp, Rpower_1 by assumption. reflexivity. Qed.

(** Moving to a density lower by a factor c raises the rate by less than c to the power 3.7392. *)
Lemma photo_slope : forall b nh t c, 0 < gamma_UVB b -> 0 < nh -> 1 < c ->
  photo_rate b (nh / c) t <= Rpower c 3.7392 * photo_rate b nh t.
Proof.
  intros b nh t c G N C. unfold photo_rate. cbv zeta. pose proof (shield_dens_pos b t) as S0.
  set (d := NeutralModel.self_shield_dens b t) in *. 
  replace (nh / c / d) with (nh / d / c) by (field; lra).
  assert (R0 : 0 < nh / d) by (apply Rdiv_pos; assumption). set (r := nh / d) in *. clearbody r.
  rewrite <- Rmult_assoc. apply Rmult_le_compat_r; [lra|].
  assert (P1 : 1 < Rpower c 1.64). { rewrite <- (Rpower_O c) by lra. apply Rpower_lt; lra. }
  assert (Q0 : 0 < Rpower r 1.64) by apply Rpower_pos.
  assert (E : Rpower (r / c) 1.64 = Rpower r 1.64 / Rpower c 1.64).
  { unfold Rdiv. rewrite <- Rpower_mult_distr by (try apply Rinv_0_lt_compat; lra). f_equal. rewrite inv_power by lra.
    rewrite Rpower_mult, <- Rpower_Ropp. f_equal. lra. }
  assert (A : Rpower (1 + Rpower (r / c) 1.64) (-2.28) <= Rpower c 3.7392 * Rpower (1 + Rpower r 1.64) (-2.28)).
  { assert (X : Rpower c 3.7392 * Rpower (1 + Rpower r 1.64) (-2.28) = Rpower ((1 + Rpower r 1.64) / Rpower c 1.64) (-2.28)).
    { unfold Rdiv. rewrite <- (Rpower_mult_distr (1 + Rpower r 1.64) (/ Rpower c 1.64)) by (try apply Rinv_0_lt_compat; lra).
      rewrite <- Rpower_Ropp, Rpower_mult. replace (Ropp 1.64 * -2.28) with 3.7392 by lra. apply Rmult_comm. }
    rewrite X. apply Rpower_le_neg; [|lra]. rewrite E. split.
    - apply Rdiv_pos; lra.
    - unfold Rdiv. rewrite Rmult_plus_distr_r. apply Rplus_le_compat_r. rewrite Rmult_1_l.
      rewrite <- Rinv_1. apply Rinv_le_contravar; lra. }
  assert (B : Rpower (1 + r / c) (-0.84) <= Rpower c 3.7392 * Rpower (1 + r) (-0.84)).
  { apply Rle_trans with (Rpower c 0.84 * Rpower (1 + r) (-0.84)).
    - assert (X : Rpower c 0.84 * Rpower (1 + r) (-0.84) = Rpower ((1 + r) / c) (-0.84)).
      { unfold Rdiv. rewrite <- (Rpower_mult_distr (1 + r) (/ c)) by (try apply Rinv_0_lt_compat; lra).
        rewrite inv_power by lra. rewrite Rpower_mult. replace (Ropp 1 * -0.84) with 0.84 by lra. apply Rmult_comm. }
      rewrite X. apply Rpower_le_neg; [|lra]. split; [apply Rdiv_pos; lra|].
      unfold Rdiv. rewrite Rmult_plus_distr_r. apply Rplus_le_compat_r. rewrite Rmult_1_l.
      rewrite <- Rinv_1. apply Rinv_le_contravar; lra.
    - apply Rmult_le_compat_r; [left; apply Rpower_pos|]. left. apply Rpower_lt; lra. }
  lra.
Qed.

Lemma C130_close_aux : forall n nh t, RatesModel.selfshield n = true -> 0 < nh ->
  photo_rate (same_background n) nh t < self_shield_corr n nh t * Rpower 10 (lg_gH0 n)
  <= 1.0121 * photo_rate (same_background n) nh t.
Proof.
  intros n nh t H N. rewrite C130_agree_aux by assumption.
  assert (G : 0 < gamma_UVB (same_background n)) by apply Rpower_pos.
  assert (N' : 0 < nh / 1.003) by lra.
  split.
  - apply photo_decr_nH; [assumption|]. lra.
  - apply Rle_trans with (Rpower 1.003 3.7392 * photo_rate (same_background n) nh t); [apply photo_slope; lra|].
    apply Rmult_le_compat_r; [left; apply photo_range; assumption|].
    apply Rle_trans with (Rpower 1.003 (INR 4)); [left; apply Rpower_lt; [lra|simpl; lra]|].
    rewrite Rpower_pow by lra. lra.
Qed.

Lemma C130_factor_aux : forall n nh t f, RatesModel.selfshield n = true -> 0 < nh -> 1 < f ->
  self_shield_corr (lit n f) nh t = self_shield_corr n nh t /\
  self_shield_corr (lit n f) nh t * (f * Rpower 10 (lg_gH0 n))
  < photo_rate (Uvb (RatesModel.gray n) (f * Rpower 10 (lg_gH0 n)) (RatesModel.f_bar n)) (nh / 1.003) t.
Proof.
  intros n nh t f H N F. split; [reflexivity|].
  change (self_shield_corr (lit n f) nh t) with (self_shield_corr n nh t).
  replace (self_shield_corr n nh t * (f * Rpower 10 (lg_gH0 n))) with (f * (self_shield_corr n nh t * Rpower 10 (lg_gH0 n))) by ring.
  rewrite C130_agree_aux by assumption. rewrite !photo_rate_eq.
  assert (G : 0 < Rpower 10 (lg_gH0 n)) by apply Rpower_pos. set (g := Rpower 10 (lg_gH0 n)) in *.
  set (b' := Uvb (RatesModel.gray n) (f * g) (RatesModel.f_bar n)).
  assert (D : NeutralModel.self_shield_dens (same_background n) t < NeutralModel.self_shield_dens b' t).
  { unfold NeutralModel.self_shield_dens, b', same_background. cbn [gray_opac gamma_UVB f_bar]. fold g.
    apply Rmult_lt_compat_r; [apply Rpower_pos|]. apply Rmult_lt_compat_l.
    - apply Rmult_lt_0_compat; [apply Rmult_lt_0_compat; [lra|apply Rpower_pos]|apply Rpower_pos].
    - apply Rpower_incr; [lra|]. split; [apply Rdiv_pos; lra|]. apply div_lt_l; [lra|]. nra. }
  pose proof (shield_dens_pos (same_background n) t) as S0.
  assert (N' : 0 < nh / 1.003) by lra.
  change (gamma_UVB b') with (f * g). change (gamma_UVB (same_background n)) with g.
  match goal with |- f * (?A * g) < ?B * (f * g) => assert (A < B); [|replace (f * (A * g)) with (A * (f * g)) by ring; apply Rmult_lt_compat_r; [nra|assumption]] end.
  apply ratio_decr. split; [apply Rdiv_pos; lra|]. apply div_lt_r; assumption.
Qed.
