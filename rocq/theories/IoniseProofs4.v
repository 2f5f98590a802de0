(** The response of the equilibrium to density, light and energy; its uniqueness. *)
From Coq Require Import Reals Lra Lia Bool List.
From Coquelicot Require Import Coquelicot.
From Verif Require Import RatesModel RatesSpec RatesProofs IoniseSpec IoniseProofs IoniseProofs2 IoniseProofs3.
Import ListNotations.
Local Open Scope R_scope.

(** ** At given temperature *)

Lemma C102_hotter_aux : forall n nh x t t' a b a' b',
  within (recomb n) t' -> 0 < photo_factor n -> 0 < nh -> 0 < x -> 0 < t < t' ->
  let coll := if collisional n then 1 else 0 in
  let photo t := Rpower 10 (lg_gH0 n) * photo_factor n * self_shield_corr n nh t in
  hydrogen_balance (x * nh) (alphaHp (recomb n) t) (coll * GammaeH0 (recomb n) t) (photo t) a b ->
  hydrogen_balance (x * nh) (alphaHp (recomb n) t') (coll * GammaeH0 (recomb n) t') (photo t') a' b' ->
  a' < a.
Proof.
  intros n nh x t t' a b a' b' W P N X T coll photo B B'.
  pose proof (good_shipped _ (within_shipped _ _ W)) as GOOD.
  assert (NE : 0 < x * nh) by (now apply Rmult_lt_0_compat).
  set (f s := photo_factor n * self_shield_corr n nh s / (x * nh)).
  assert (E : forall s, photo s = gH0 n * (f s * (x * nh))).
  { intros s. unfold photo, f, gH0. field. lra. }
  assert (F : forall s, 0 < f s).
  { intros s. pose proof (self_shield_corr_range n nh s N). apply Rdiv_pos; auto. apply Rmult_lt_0_compat; lra. }
  unfold coll in *. rewrite E in B, B'. rewrite <- b2r_if in B, B'.
  apply (hyd_only n t (f t) GOOD ltac:(lra) (F t) _ _ _ NE) in B as [-> _].
  apply (hyd_only n t' (f t') GOOD ltac:(lra) (F t') _ _ _ NE) in B' as [-> _].
  apply (hyd_response n t' t (f t') (f t)); auto; try lra.
  unfold f. apply div_incr; auto. apply Rmult_le_compat_l. lra. apply shield_anti; lra.
Qed.

Lemma light_settles : forall n t f f' nh nh' helium x x', good (recomb n) -> 0 < t -> 0 <= helium < 1 ->
  0 < f' -> 0 < f -> 0 < nh -> 0 < nh' -> 0 < x -> 0 < x' ->
  x = eb n t (f / (x * nh)) helium -> x' = eb n t (f' / (x' * nh')) helium -> f' * nh < f * nh' ->
  x' < x /\ hyd n t (f / (x * nh)) < hyd n t (f' / (x' * nh')).
Proof.
  intros n t f f' nh nh' helium x x' GOOD T H F' F N N' X X' E E' L.
  assert (P : 0 < x * nh) by (now apply Rmult_lt_0_compat).
  assert (P' : 0 < x' * nh') by (now apply Rmult_lt_0_compat).
  set (p := f / (x * nh)) in *. set (p' := f' / (x' * nh')) in *.
  assert (Q : 0 < p) by (now apply Rdiv_pos). assert (Q' : 0 < p') by (now apply Rdiv_pos).
  assert (XX : x' < x).
  { destruct (Rlt_dec x' x) as [C | C]; auto. exfalso.
    assert (p' < p).
    { unfold p, p'. apply Rmult_lt_reg_r with (x * nh * (x' * nh')). now apply Rmult_lt_0_compat.
      replace (f' / (x' * nh') * (x * nh * (x' * nh'))) with (x * (f' * nh)) by (field; lra).
      replace (f / (x * nh) * (x * nh * (x' * nh'))) with (x' * (f * nh')) by (field; lra).
      assert (0 < f' * nh) by (now apply Rmult_lt_0_compat).
      apply Rle_lt_trans with (x' * (f' * nh)). apply Rmult_le_compat_r; lra. apply Rmult_lt_compat_l; lra. }
    pose proof (eb_bright n t p p' helium GOOD T Q' H0 H). lra. }
  split; auto. apply hyd_bright; auto.
  destruct (Rlt_dec p' p) as [C | C]; auto. exfalso.
  destruct (Req_dec p p') as [Z | Z]. rewrite <- Z in E'. lra.
  pose proof (eb_bright n t p' p helium GOOD T Q ltac:(lra) H). lra.
Qed.

Lemma C102_denser_aux : forall n nh nh' helium t x x' a a',
  shipped (recomb n) -> 0 < photo_factor n -> 0 <= helium < 1 -> 0 < t -> 0 < nh < nh' -> 0 < x -> 0 < x' ->
  balanced n (self_shield_corr n nh t) nh helium t x a ->
  balanced n (self_shield_corr n nh' t) nh' helium t x' a' ->
  x' < x /\ a < a'.
Proof.
  intros n nh nh' helium t x x' a a' SH P H T N X X' B B'. pose proof (good_shipped _ SH) as GOOD.
  pose proof (self_shield_corr_range n nh t ltac:(lra)) as S1. pose proof (self_shield_corr_range n nh' t ltac:(lra)) as S2.
  pose proof (shield_anti n nh nh' t t ltac:(lra) ltac:(lra) T ltac:(lra)) as SS.
  assert (0 < photo_factor n * self_shield_corr n nh t) by (apply Rmult_lt_0_compat; lra).
  assert (0 < photo_factor n * self_shield_corr n nh' t) by (apply Rmult_lt_0_compat; lra).
  apply balanced_iff in B as [E ->]; auto; try lra. apply balanced_iff in B' as [E' ->]; auto; try lra.
  apply (light_settles n t _ _ nh nh' helium); auto; try lra.
  apply Rle_lt_trans with (photo_factor n * self_shield_corr n nh t * nh).
  apply Rmult_le_compat_r. lra. apply Rmult_le_compat_l; lra. apply Rmult_lt_compat_l; lra.
Qed.

Lemma C102_brighter_aux : forall n f f' s s' nh helium t x x' a a',
  shipped (recomb n) -> 0 <= helium < 1 -> 0 < t -> 0 < nh -> 0 < x -> 0 < x' -> 0 < f * s < f' * s' ->
  balanced (lit n f) s nh helium t x a -> balanced (lit n f') s' nh helium t x' a' ->
  x < x' /\ a' < a.
Proof.
  intros n f f' s s' nh helium t x x' a a' SH H T N X X' L B B'. pose proof (good_shipped _ SH) as GOOD.
  apply balanced_iff in B as [E ->]; auto; try (cbn; lra). apply balanced_iff in B' as [E' ->]; auto; try (cbn; lra).
  cbn [photo_factor lit] in *.
  change (x = eb n t (f * s / (x * nh)) helium) in E. change (x' = eb n t (f' * s' / (x' * nh)) helium) in E'.
  change (x < x' /\ hyd n t (f' * s' / (x' * nh)) < hyd n t (f * s / (x * nh))).
  apply (light_settles n t _ _ nh nh helium); auto; try lra.
  apply Rmult_lt_compat_r; lra.
Qed.

(** ** At given energy *)

Lemma ln_sub : forall y, 0 < y -> ln y <= y - 1.
Proof.
  intros y Y. rewrite <- (ln_exp (y - 1)). apply ln_le'; auto. pose proof (exp_one_plus (y - 1)). lra.
Qed.

Lemma particles_pos : forall x helium, 0 <= x -> 0 <= helium < 1 -> 0 < 1 - helium <= particles_per_mass x helium.
Proof.
  intros x helium X H. unfold particles_per_mass. assert (0 <= x * (1 - helium)) by (apply Rmult_le_pos; lra). lra.
Qed.

Lemma thermal_pos : forall u helium x t, 0 < u -> 0 <= x -> 0 <= helium < 1 -> thermal u helium x t -> 0 < t.
Proof.
  intros u helium x t U X H TH. unfold thermal in TH. pose proof (particles_pos x helium X H) as P.
  destruct (Rlt_dec 0 t) as [C | C]; auto. exfalso.
  assert (0 <= - t * particles_per_mass x helium) by (apply Rmult_le_pos; lra).
  assert (0 < u * 1e10 * 1.67262178e-24) by lra. lra.
Qed.

(** Two states: energies [u <= u'], the second no hotter. *)
Lemma thermal_log : forall u u' helium x x' t t', 0 < u -> u <= u' -> 0 <= x -> 0 <= x' -> 0 <= helium < 1 ->
  thermal u helium x t -> thermal u' helium x' t' -> t' <= t ->
  x <= x' /\ ln (t / t') <= x' - x /\ (u < u' \/ t' < t -> x < x').
Proof.
  intros u u' helium x x' t t' U UU X X' H TH TH' TT.
  pose proof (particles_pos x helium X H) as P. pose proof (particles_pos x' helium X' H) as P'.
  pose proof (thermal_pos u helium x t U X H TH) as T. pose proof (thermal_pos u' helium x' t' ltac:(lra) X' H TH') as T'.
  unfold thermal in *.
  assert (DP : particles_per_mass x' helium - particles_per_mass x helium = (x' - x) * (1 - helium)).
  { unfold particles_per_mass. ring. }
  set (p := particles_per_mass x helium) in *. set (p' := particles_per_mass x' helium) in *. clearbody p p'.
  assert (E : t * p <= t' * p') by lra.
  assert (ES : u < u' -> t * p < t' * p') by (intros; lra).
  assert (PP : p <= p').
  { apply Rmult_le_reg_l with t'; auto. apply Rle_trans with (t * p); auto. apply Rmult_le_compat_r; lra. }
  assert (PS : u < u' \/ t' < t -> p < p').
  { intros C. apply Rmult_lt_reg_l with t'; auto. destruct C as [C | C].
    apply Rle_lt_trans with (t * p); auto. apply Rmult_le_compat_r; lra.
    apply Rlt_le_trans with (t * p); auto. apply Rmult_lt_compat_r; lra. }
  assert (XX : x <= x').
  { apply Rmult_le_reg_r with (1 - helium); lra. }
  split; auto. split.
  - assert (Q : t / t' <= p' / p).
    { apply Rmult_le_reg_r with (t' * p). apply Rmult_lt_0_compat; lra.
      replace (t / t' * (t' * p)) with (t * p) by (field; lra).
      replace (p' / p * (t' * p)) with (t' * p') by (field; lra). lra. }
    pose proof (Rdiv_pos t t' T T') as TP.
    pose proof (ln_le' _ _ TP Q) as L1. pose proof (ln_sub (p' / p) ltac:(lra)) as L2.
    assert (p' / p - 1 <= x' - x).
    { apply Rmult_le_reg_r with p. lra. replace ((p' / p - 1) * p) with (p' - p) by (field; lra). rewrite DP.
      apply Rmult_le_compat_l; lra. }
    lra.
  - intros C. specialize (PS C). apply Rmult_lt_reg_r with (1 - helium); lra.
Qed.

Lemma thermal_order : forall u helium x x' t t', 0 < u -> 0 <= x -> x <= x' -> 0 <= helium < 1 ->
  thermal u helium x t -> thermal u helium x' t' -> t' <= t.
Proof.
  intros u helium x x' t t' U X XX H TH TH'.
  destruct (Rle_dec t' t) as [C | C]; auto. exfalso.
  destruct (thermal_log u u helium x' x t' t) as (A & B & D); auto; try lra.
Qed.

(** The electrons that would be in balance, as a function of the electrons assumed: it cannot grow faster than at
    the rate three times the helium per hydrogen. *)
Lemma contract : forall n nh nh' helium u u' tm x x' t t',
  0 < photo_factor n -> 0 < nh -> nh <= nh' -> 0 <= helium < 1 -> 0 < u -> u <= u' ->
  within (recomb n) tm -> t <= tm -> 0 < x -> 0 < x' -> thermal u helium x t -> thermal u' helium x' t' -> t' <= t ->
  let e h y s := eb n s (photo_factor n * self_shield_corr n h s / (y * h)) helium in
  x <= x' /\ (u < u' -> x < x') /\
  e nh' x' t' - e nh x t <= 3 * yy helium * (x' - x) /\
  (nh < nh' \/ x < x' -> e nh' x' t' - e nh x t < 3 * yy helium * (x' - x)).
Proof.
  intros n nh nh' helium u u' tm x x' t t' P N NN H U UU W TM X X' TH TH' TT e.
  destruct (thermal_log u u' helium x x' t t' U UU ltac:(lra) ltac:(lra) H TH TH' TT) as (XX & L & XS).
  pose proof (thermal_pos u' helium x' t' ltac:(lra) ltac:(lra) H TH') as T'.
  pose proof (good_shipped _ (within_shipped _ _ W)) as GOOD. pose proof (within_down _ _ t W TM) as WT.
  pose proof (self_shield_corr_range n nh' t' ltac:(lra)) as S'.
  pose proof (shield_anti n nh nh' t t' N NN T' TT) as SS.
  destruct (light_anti (photo_factor n) (self_shield_corr n nh t) (self_shield_corr n nh' t') nh nh' x x') as (F1 & F2); auto; try lra.
  destruct (eb_response n t t' _ _ helium GOOD WT T' TT (proj1 F1) (proj2 F1) H) as (R1 & R2).
  fold (e nh' x' t') (e nh x t) in R1, R2. pose proof (yy_nonneg helium H) as Y.
  assert (3 * yy helium * ln (t / t') <= 3 * yy helium * (x' - x)) by (apply Rmult_le_compat_l; lra).
  split; auto. split; [intros; apply XS; auto|]. split; [lra|].
  intros C. specialize (F2 C). specialize (R2 (or_intror F2)). lra.
Qed.

Lemma slope : forall helium, 0 <= helium < 4 / 7 -> 3 * yy helium < 1.
Proof.
  intros helium H. unfold yy. apply Rmult_lt_reg_r with (4 * (1 - helium)). lra.
  replace (3 * (helium / 4 / (1 - helium)) * (4 * (1 - helium))) with (3 * helium) by (field; lra). lra.
Qed.

Lemma balanced_e : forall n nh helium u x t a, good (recomb n) -> 0 < photo_factor n -> 0 < nh -> 0 < u -> 0 < x -> 0 <= helium < 1 ->
  thermal u helium x t -> balanced n (self_shield_corr n nh t) nh helium t x a ->
  x = eb n t (photo_factor n * self_shield_corr n nh t / (x * nh)) helium.
Proof.
  intros n nh helium u x t a GOOD P N U X H TH B.
  pose proof (thermal_pos u helium x t U ltac:(lra) H TH). pose proof (self_shield_corr_range n nh t N).
  apply balanced_iff in B as [E _]; auto. apply Rmult_lt_0_compat; lra.
Qed.

Lemma C103_unique_aux : forall n nh helium u tm x t a x' t' a',
  0 < photo_factor n -> 0 < nh -> 0 <= helium < 4 / 7 -> 0 < u -> thermal u helium 0 tm -> within (recomb n) tm ->
  0 < x -> thermal u helium x t -> balanced n (self_shield_corr n nh t) nh helium t x a ->
  0 < x' -> thermal u helium x' t' -> balanced n (self_shield_corr n nh t') nh helium t' x' a' ->
  x = x' /\ t = t' /\ a = a'.
Proof.
  intros n nh helium u tm x t a x' t' a' P N H U TM W X TH B X' TH' B'.
  pose proof (good_shipped _ (within_shipped _ _ W)) as GOOD. pose proof (slope helium H) as K.
  assert (XX : forall x t a x' t' a', 0 < x -> thermal u helium x t -> balanced n (self_shield_corr n nh t) nh helium t x a ->
    0 < x' -> thermal u helium x' t' -> balanced n (self_shield_corr n nh t') nh helium t' x' a' -> x < x' -> False).
  { clear - P N H U TM W GOOD K. intros x t a x' t' a' X TH B X' TH' B' L.
    pose proof (thermal_order u helium x x' t t' U ltac:(lra) ltac:(lra) ltac:(lra) TH TH') as TT.
    pose proof (thermal_order u helium 0 x tm t U ltac:(lra) ltac:(lra) ltac:(lra) TM TH) as TX.
    destruct (contract n nh nh helium u u tm x x' t t') as (_ & _ & _ & C); auto; try lra. cbv zeta in C.
    rewrite <- (balanced_e n nh helium u x t a), <- (balanced_e n nh helium u x' t' a') in C; auto; try lra.
    specialize (C (or_intror L)).
    assert (3 * yy helium * (x' - x) <= 1 * (x' - x)) by (apply Rmult_le_compat_r; lra). lra. }
  assert (E : x = x').
  { destruct (Rtotal_order x x') as [C | [C | C]]; auto; exfalso; [eapply (XX x t a x' t' a') | eapply (XX x' t' a' x t a)]; eauto. }
  subst x'.
  assert (ET : t = t').
  { pose proof (thermal_order u helium x x t t' U ltac:(lra) ltac:(lra) ltac:(lra) TH TH').
    pose proof (thermal_order u helium x x t' t U ltac:(lra) ltac:(lra) ltac:(lra) TH' TH). lra. }
  subst t'. split; auto. split; auto.
  pose proof (thermal_pos u helium x t U ltac:(lra) ltac:(lra) TH). pose proof (self_shield_corr_range n nh t N).
  assert (0 < photo_factor n * self_shield_corr n nh t) by (apply Rmult_lt_0_compat; lra).
  apply balanced_iff in B as [_ ->]; auto. apply balanced_iff in B' as [_ ->]; auto.
Qed.

Lemma C103_denser_aux : forall n nh nh' helium u tm x t a x' t' a',
  0 < photo_factor n -> 0 < nh < nh' -> 0 <= helium < 4 / 7 -> 0 < u -> thermal u helium 0 tm -> within (recomb n) tm ->
  0 < x -> thermal u helium x t -> balanced n (self_shield_corr n nh t) nh helium t x a ->
  0 < x' -> thermal u helium x' t' -> balanced n (self_shield_corr n nh' t') nh' helium t' x' a' ->
  x' < x /\ t < t'.
Proof.
  intros n nh nh' helium u tm x t a x' t' a' P N H U TM W X TH B X' TH' B'.
  pose proof (good_shipped _ (within_shipped _ _ W)) as GOOD. pose proof (slope helium H) as K.
  assert (XX : x' < x).
  { destruct (Rlt_dec x' x) as [C | C]; auto. exfalso.
    pose proof (thermal_order u helium x x' t t' U ltac:(lra) ltac:(lra) ltac:(lra) TH TH') as TT.
    pose proof (thermal_order u helium 0 x tm t U ltac:(lra) ltac:(lra) ltac:(lra) TM TH) as TX.
    destruct (contract n nh nh' helium u u tm x x' t t') as (_ & _ & _ & D); auto; try lra. cbv zeta in D.
    rewrite <- (balanced_e n nh helium u x t a), <- (balanced_e n nh' helium u x' t' a') in D; auto; try lra.
    specialize (D (or_introl (proj2 N))).
    assert (3 * yy helium * (x' - x) <= 1 * (x' - x)) by (apply Rmult_le_compat_r; lra). lra. }
  split; auto.
  destruct (Rlt_dec t t') as [C | C]; auto. exfalso.
  destruct (thermal_log u u helium x x' t t') as (A & _); auto; lra.
Qed.

Lemma C103_energy_aux : forall n nh helium u u' tm x t a x' t' a',
  0 < photo_factor n -> 0 < nh -> 0 <= helium < 4 / 7 -> 0 < u < u' -> thermal u helium 0 tm -> within (recomb n) tm ->
  0 < x -> thermal u helium x t -> balanced n (self_shield_corr n nh t) nh helium t x a ->
  0 < x' -> thermal u' helium x' t' -> balanced n (self_shield_corr n nh t') nh helium t' x' a' ->
  t < t'.
Proof.
  intros n nh helium u u' tm x t a x' t' a' P N H U TM W X TH B X' TH' B'.
  pose proof (good_shipped _ (within_shipped _ _ W)) as GOOD. pose proof (slope helium H) as K.
  destruct (Rlt_dec t t') as [C | C]; auto. exfalso.
  pose proof (thermal_order u helium 0 x tm t (proj1 U) ltac:(lra) ltac:(lra) ltac:(lra) TM TH) as TX.
  destruct (contract n nh nh helium u u' tm x x' t t') as (_ & XS & D & _); auto; try lra. cbv zeta in D.
  rewrite <- (balanced_e n nh helium u x t a), <- (balanced_e n nh helium u' x' t' a') in D; auto; try lra.
  specialize (XS (proj2 U)).
  assert (3 * yy helium * (x' - x) < 1 * (x' - x)) by (apply Rmult_lt_compat_r; lra). lra.
Qed.

(** ** Accuracy *)

Lemma residual : forall n nh helium u tm x t a y s,
  0 < photo_factor n -> 0 < nh -> 0 <= helium < 4 / 7 -> 0 < u -> thermal u helium 0 tm -> within (recomb n) tm ->
  0 < x -> thermal u helium x t -> balanced n (self_shield_corr n nh t) nh helium t x a ->
  0 < y -> thermal u helium y s ->
  Rabs (y - x) * (1 - 3 * yy helium) <=
  Rabs (eb n s (photo_factor n * self_shield_corr n nh s / (y * nh)) helium - y).
Proof.
  intros n nh helium u tm x t a y s P N H U TM W X TH B Y TY.
  pose proof (good_shipped _ (within_shipped _ _ W)) as GOOD. pose proof (slope helium H) as K.
  pose proof (balanced_e n nh helium u x t a GOOD P N U X ltac:(lra) TH B) as E.
  pose proof (thermal_order u helium 0 x tm t U ltac:(lra) ltac:(lra) ltac:(lra) TM TH) as TX.
  pose proof (thermal_order u helium 0 y tm s U ltac:(lra) ltac:(lra) ltac:(lra) TM TY) as TS.
  set (F := eb n s (photo_factor n * self_shield_corr n nh s / (y * nh)) helium).
  destruct (Rle_dec x y) as [C | C].
  - pose proof (thermal_order u helium x y t s U ltac:(lra) C ltac:(lra) TH TY) as TT.
    destruct (contract n nh nh helium u u tm x y t s) as (_ & _ & D & _); auto; try lra. cbv zeta in D.
    fold F in D. rewrite <- E in D. rewrite (Rabs_pos_eq (y - x)) by lra.
    assert (0 <= (y - x) * (1 - 3 * yy helium)) by (apply Rmult_le_pos; lra).
    rewrite (Rabs_left1 (F - y)) by lra. lra.
  - pose proof (thermal_order u helium y x s t U ltac:(lra) ltac:(lra) ltac:(lra) TY TH) as TT.
    destruct (contract n nh nh helium u u tm y x s t) as (_ & _ & D & _); auto; try lra. cbv zeta in D.
    fold F in D. rewrite <- E in D. rewrite (Rabs_left1 (y - x)) by lra.
    assert (0 <= (x - y) * (1 - 3 * yy helium)) by (apply Rmult_le_pos; lra).
    rewrite (Rabs_pos_eq (F - y)) by lra. lra.
Qed.

Lemma C103_solver_aux : forall n maxiter density u helium ne,
  shipped (recomb n) -> 0 < photo_factor n -> 0 <= helium < 4 / 7 ->
  length density = length u -> List.Forall (fun d => 0 < d) density -> List.Forall (fun e => 0 < e) u ->
  get_equilib_ne n maxiter density u helium = Value ne ->
  length ne = length density /\
  forall i d e m tm x t a,
    nth_error density i = Some d -> nth_error u i = Some e -> nth_error ne i = Some m ->
    let nh := d * (1 - helium) in
    thermal e helium 0 tm -> within (recomb n) tm ->
    1e-40 < m / nh -> 0 < x -> thermal e helium x t -> balanced n (self_shield_corr n nh t) nh helium t x a ->
    Rabs (m / nh - x) * (4 - 7 * helium) < 4 * (1 - helium) * converge n.
Proof.
  intros n maxiter density u helium ne SH P H L D U E.
  destruct (C40_solution_aux n maxiter density u helium SH ltac:(lra) ltac:(lra) L D U) as [_ SOL].
  destruct (SOL ne E) as [LN S]. split; auto.
  intros i d e m tm x t a Hd He Hm nh TM W M X TH B. clear SOL.
  assert (D0 : 0 < d) by (rewrite Forall_forall in D; apply D; eapply nth_error_In; eauto).
  assert (U0 : 0 < e) by (rewrite Forall_forall in U; apply U; eapply nth_error_In; eauto).
  destruct (S i d e m Hd He Hm) as (_ & s & GT & T0 & RES). fold nh in GT, RES.
  assert (N : 0 < nh) by (apply Rmult_lt_0_compat; lra).
  pose proof (good_shipped _ SH) as GOOD.
  destruct (C38_temperature_aux (m / nh) e helium ltac:(lra) U0 ltac:(lra)) as (s' & GT' & _ & TY).
  rewrite GT in GT'. injection GT' as <-. change (thermal e helium (m / nh) s) in TY.
  rewrite nebynh_eb in RES; auto.
  pose proof (residual n nh helium e tm x t a (m / nh) s P N H U0 TM W X TH B ltac:(lra) TY) as RS.
  assert (Q : 1 - 3 * yy helium = (4 - 7 * helium) / (4 * (1 - helium))) by (unfold yy; field; lra).
  rewrite Q in RS.
  apply Rmult_lt_reg_r with (/ (4 * (1 - helium))). apply Rinv_0_lt_compat; lra.
  replace (4 * (1 - helium) * converge n * / (4 * (1 - helium))) with (converge n) by (field; lra).
  unfold Rdiv in RS at 2. lra.
Qed.
