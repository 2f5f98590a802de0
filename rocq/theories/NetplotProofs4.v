(** The effect of collisional ionisation. *)
From Coq Require Import Reals List Bool Arith Lia Lra.
From Verif Require Import RatesModel RatesSpec RatesProofs IoniseSpec IoniseProofs IoniseProofs2 IoniseProofs3 IoniseProofs4.
From Verif Require Import NetplotModel NetplotSpec.
Import ListNotations.
Local Open Scope R_scope.

Lemma shield_same : forall n b nh t, self_shield_corr (colliding n b) nh t = self_shield_corr n nh t.
Proof. reflexivity. Qed.

(** At the same light per electron collisions free more electrons. *)
Lemma eb_collides : forall n t f helium, good (recomb n) -> 0 < t -> 0 < f -> 0 <= helium < 1 ->
  eb (colliding n false) t f helium < eb (colliding n true) t f helium.
Proof.
  intros n t f helium GOOD T F H. destruct (GOOD t T) as (A & AH & AD & A2 & G & G0 & G1).
  destruct (gpos n) as (P & P0 & P1). unfold eb.
  assert (HY : hyd (colliding n true) t f < hyd (colliding n false) t f).
  { unfold hyd. cbn [recomb collisional colliding b2r]. change (gH0 (colliding n true)) with (gH0 n). change (gH0 (colliding n false)) with (gH0 n).
    assert (0 < gH0 n * f) by (apply Rmult_lt_0_compat; lra). apply frac_lt; lra. }
  assert (HE : hel (colliding n false) t f <= hel (colliding n true) t f).
  { unfold hel, i0, i1. cbn [recomb collisional colliding b2r].
    change (recHep (colliding n true) t) with (recHep n t). change (recHep (colliding n false) t) with (recHep n t).
    change (gHe0 (colliding n true)) with (gHe0 n). change (gHe0 (colliding n false)) with (gHe0 n).
    change (gHep (colliding n true)) with (gHep n). change (gHep (colliding n false)) with (gHep n).
    assert (0 < gHe0 n * f) by (apply Rmult_lt_0_compat; lra). assert (0 < gHep n * f) by (apply Rmult_lt_0_compat; lra).
    assert (RP : 0 < recHep n t) by (unfold recHep; lra).
    apply heb_mono.
    - apply Rdiv_pos; lra.
    - apply div_anti; lra.
    - left. apply Rdiv_pos; lra.
    - apply div_incr; lra. }
  assert (0 <= yy helium). { unfold yy. apply Rmult_le_pos; [|left; apply Rinv_0_lt_compat]; lra. }
  assert (yy helium * hel (colliding n false) t f <= yy helium * hel (colliding n true) t f) by (apply Rmult_le_compat_l; lra). lra.
Qed.

(** At given temperature. *)
Lemma C121_electrons_temperature_aux : forall n s nh helium t x x' a a',
  shipped (recomb n) -> 0 < photo_factor n -> 0 < s -> 0 < nh -> 0 <= helium < 1 -> 0 < t -> 0 < x -> 0 < x' ->
  balanced (colliding n true) s nh helium t x a -> balanced (colliding n false) s nh helium t x' a' -> x' < x.
Proof.
  intros n s nh helium t x x' a a' SH P S0 N H T X X' B B'. pose proof (good_shipped _ SH) as GOOD.
  assert (PS : 0 < photo_factor n * s) by (apply Rmult_lt_0_compat; lra).
  apply balanced_iff in B as [E _]; auto. apply balanced_iff in B' as [E' _]; auto.
  cbn [photo_factor colliding] in E, E'.
  destruct (Rlt_dec x' x) as [|C]; [assumption|]. exfalso.
  assert (F : 0 < photo_factor n * s / (x' * nh)) by (apply Rdiv_pos; [lra|apply Rmult_lt_0_compat; lra]).
  assert (FF : photo_factor n * s / (x' * nh) <= photo_factor n * s / (x * nh)).
  { apply div_anti; [lra|apply Rmult_lt_0_compat; lra|apply Rmult_le_compat_r; lra]. }
  pose proof (eb_collides n t _ helium GOOD T F H) as C1.
  assert (C2 : eb (colliding n true) t (photo_factor n * s / (x' * nh)) helium <= eb (colliding n true) t (photo_factor n * s / (x * nh)) helium).
  { set (f' := photo_factor n * s / (x' * nh)) in *. set (f := photo_factor n * s / (x * nh)) in *. clearbody f f'.
    destruct (GOOD t T) as (A & AH & AD & A2 & G & G0 & G1). destruct (gpos n) as (Q & Q0 & Q1). unfold eb.
    assert (HY : hyd (colliding n true) t f <= hyd (colliding n true) t f').
    { unfold hyd. cbn [recomb collisional colliding b2r]. change (gH0 (colliding n true)) with (gH0 n).
      assert (gH0 n * f' <= gH0 n * f) by (apply Rmult_le_compat_l; lra). assert (0 < gH0 n * f') by (apply Rmult_lt_0_compat; lra).
      apply frac_le; lra. }
    assert (HE : hel (colliding n true) t f' <= hel (colliding n true) t f).
    { unfold hel, i0, i1. cbn [recomb collisional colliding b2r]. change (recHep (colliding n true) t) with (recHep n t).
      change (gHe0 (colliding n true)) with (gHe0 n). change (gHep (colliding n true)) with (gHep n).
      assert (gHe0 n * f' <= gHe0 n * f) by (apply Rmult_le_compat_l; lra). assert (gHep n * f' <= gHep n * f) by (apply Rmult_le_compat_l; lra).
      assert (0 < gHe0 n * f') by (apply Rmult_lt_0_compat; lra). assert (0 < gHep n * f') by (apply Rmult_lt_0_compat; lra).
      assert (RP : 0 < recHep n t) by (unfold recHep; lra).
      apply heb_mono; [apply Rdiv_pos; lra|apply div_anti; lra|left; apply Rdiv_pos; lra|apply div_incr; lra]. }
    assert (0 <= yy helium). { unfold yy. apply Rmult_le_pos; [|left; apply Rinv_0_lt_compat]; lra. }
    assert (yy helium * hel (colliding n true) t f' <= yy helium * hel (colliding n true) t f) by (apply Rmult_le_compat_l; lra). lra. }
  lra.
Qed.

(** At given energy. *)
Lemma C121_electrons_energy_aux : forall n nh helium u tm x t a x' t' a',
  0 < photo_factor n -> 0 < nh -> 0 <= helium < 4 / 7 -> 0 < u -> thermal u helium 0 tm -> within (recomb n) tm ->
  0 < x -> thermal u helium x t -> balanced (colliding n true) (self_shield_corr n nh t) nh helium t x a ->
  0 < x' -> thermal u helium x' t' -> balanced (colliding n false) (self_shield_corr n nh t') nh helium t' x' a' ->
  x' < x /\ t < t'.
Proof.
  intros n nh helium u tm x t a x' t' a' P N H U TM W X TH B X' TH' B'.
  pose proof (good_shipped _ (within_shipped _ _ W)) as GOOD. pose proof (slope helium H) as K.
  assert (XX : x' < x).
  { destruct (Rlt_dec x' x) as [C | C]; auto. exfalso.
    pose proof (thermal_order u helium x x' t t' U ltac:(lra) ltac:(lra) ltac:(lra) TH TH') as TT.
    pose proof (thermal_order u helium 0 x tm t U ltac:(lra) ltac:(lra) ltac:(lra) TM TH) as TX.
    pose proof (thermal_pos u helium x' t' U ltac:(lra) ltac:(lra) TH') as T'.
    destruct (contract (colliding n true) nh nh helium u u tm x x' t t') as (_ & _ & D & _); auto; try lra. cbv zeta in D.
    rewrite <- (balanced_e (colliding n true) nh helium u x t a) in D; auto; try lra.
    pose proof (balanced_e (colliding n false) nh helium u x' t' a' GOOD P N U X' ltac:(lra) TH' B') as E'.
    rewrite !shield_same in *. cbn [photo_factor colliding] in *.
    pose proof (self_shield_corr_range n nh t' N) as SR.
    pose proof (eb_collides n t' (photo_factor n * self_shield_corr n nh t' / (x' * nh)) helium GOOD T'
      ltac:(apply Rdiv_pos; apply Rmult_lt_0_compat; lra) ltac:(lra)) as C1.
    assert (3 * yy helium * (x' - x) <= 1 * (x' - x)) by (apply Rmult_le_compat_r; lra). lra. }
  split; auto.
  destruct (Rlt_dec t t') as [C | C]; auto. exfalso.
  destruct (thermal_log u u helium x x' t t') as (A & _); auto; lra.
Qed.

(** Without helium there is less neutral hydrogen. *)
Lemma C121_hydrogen_only_aux : forall n nh u tm x t a x' t' a',
  0 < photo_factor n -> 0 < nh -> 0 < u -> thermal u 0 0 tm -> within (recomb n) tm ->
  0 < x -> thermal u 0 x t -> balanced (colliding n true) (self_shield_corr n nh t) nh 0 t x a ->
  0 < x' -> thermal u 0 x' t' -> balanced (colliding n false) (self_shield_corr n nh t') nh 0 t' x' a' ->
  a < a'.
Proof.
  intros n nh u tm x t a x' t' a' P N U TM W X TH B X' TH' B'.
  destruct (C121_electrons_energy_aux n nh 0 u tm x t a x' t' a') as [E _]; auto; try lra.
  destruct B as (b & h0 & h1 & h2 & [S1 _] & _ & EX). destruct B' as (b' & h0' & h1' & h2' & [S1' _] & _ & EX').
  unfold Rdiv in EX, EX'. rewrite !Rmult_0_l in EX, EX'. lra.
Qed.
