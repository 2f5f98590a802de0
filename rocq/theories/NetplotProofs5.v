(** Hot gas in which collisional ionisation of helium makes more hydrogen neutral. *)
From Coq Require Import Reals List Bool Arith Lia Lra.
From Verif Require Import RatesModel RatesSpec RatesProofs IoniseSpec IoniseProofs IoniseProofs2 IoniseProofs3 IoniseProofs4 IoniseProofs5.
From Verif Require Import NetplotModel NetplotSpec NetplotProofs4.
Import ListNotations.
Local Open Scope R_scope.

Lemma Rpower_ge1 : forall a e, 1 <= a -> 0 <= e -> 1 <= Rpower a e.
Proof. intros a e A E. rewrite <- (Rpower_O a) by lra. apply Rle_Rpower; lra. Qed.

Lemma sqrt_range : forall t, 9e5 <= t <= 1e6 -> 900 <= sqrt t <= 1000.
Proof.
  intros t T. split.
  - rewrite <- (sqrt_square 900) by lra. apply sqrt_le_1_alt. lra.
  - rewrite <- (sqrt_square 1000) by lra. apply sqrt_le_1_alt. lra.
Qed.

Lemma div_ge : forall k w d, 0 < d -> k * d <= w -> k <= w / d.
Proof. intros k w d D H. apply Rmult_le_reg_r with d; [lra|]. replace (w / d * d) with w by (field; lra). exact H. Qed.
Lemma div_le : forall k w d, 0 < d -> w <= k * d -> w / d <= k.
Proof. intros k w d D H. apply Rmult_le_reg_r with d; [lra|]. replace (w / d * d) with w by (field; lra). exact H. Qed.

Lemma light_value : forall x k, 0 < x -> 0 < k -> 1 * 1 / (x * k) * x * k = 1.
Proof. intros x k X K. field. lra. Qed.

Lemma alpha_range : forall t, 9e5 <= t <= 1e6 -> 1e-14 <= cen_alphaHp t <= 1e-13.
Proof.
  intros t T. pose proof (sqrt_range t T) as S. unfold cen_alphaHp.
  assert (R1 : 1 <= Rpower (t / 1000) 0.2 <= 4).
  { split; [apply Rpower_ge1; lra|]. apply (two_pow _ _ 10 2); try lra. rewrite !INR_IZR_INZ. simpl IZR. lra. }
  assert (R2 : 0 < Rpower (t / 1e6) 0.7 <= 1).
  { split; [apply Rpower_pos|]. apply (two_pow _ _ 0 0); try lra. rewrite !INR_IZR_INZ. simpl IZR. lra. }
  set (s := sqrt t) in *. set (r := Rpower (t / 1000) 0.2) in *. set (q := Rpower (t / 1e6) 0.7) in *. clearbody s r q.
  assert (P1 : 0 < s * r) by (apply Rmult_lt_0_compat; lra).
  assert (P2 : 0 < s * r * (1 + q)) by (apply Rmult_lt_0_compat; lra).
  replace (8.4e-11 / s / r / (1 + q)) with (8.4e-11 / (s * r * (1 + q))).
  2: { assert (0 < 8.4e-11) by lra. set (w := 8.4e-11) in *. clearbody w. field. repeat split; lra. }
  assert (B1 : s * r <= 1000 * 4) by (apply Rmult_le_compat; lra). assert (B2 : s * r * (1 + q) <= 4000 * 2) by (apply Rmult_le_compat; lra).
  assert (B3 : 900 * 1 <= s * r) by (apply Rmult_le_compat; lra). assert (B4 : 900 * 1 <= s * r * (1 + q)) by (apply Rmult_le_compat; lra).
  set (d := s * r * (1 + q)) in *. clearbody d. split.
  - apply div_ge; lra.
  - apply div_le; lra.
Qed.

Lemma collisional_range : forall c b t, 0 < c -> 0 <= b <= 650000 -> 9e5 <= t <= 1e6 ->
  c * 900 * (1 - b / 9e5) / 5 <= cen_collisional c b t <= c * 1000.
Proof.
  intros c b t C B T. pose proof (sqrt_range t T) as S. unfold cen_collisional.
  assert (Q : 0 <= sqrt (t / 1e5) <= 4).
  { split; [apply sqrt_pos|]. rewrite <- (sqrt_square 4) by lra. apply sqrt_le_1_alt. lra. }
  assert (BT : 0 <= b / t <= b / 9e5). { split; [apply Rmult_le_pos; [lra|left; apply Rinv_0_lt_compat; lra]|apply div_anti; lra]. }
  assert (E : 1 - b / 9e5 <= exp (- b / t) <= 1).
  { replace (- b / t) with (- (b / t)) by lra. split.
    - pose proof (exp_one_plus (- (b / t))). lra.
    - rewrite <- exp_0. apply exp_le. lra. }
  assert (K : 0 < 1 - b / 9e5) by lra. set (k := 1 - b / 9e5) in *. clearbody k.
  set (s := sqrt t) in *. set (q := sqrt (t / 1e5)) in *. set (e := exp (- b / t)) in *. clearbody s q e. clear BT.
  assert (L1 : c * 900 <= c * s) by (apply Rmult_le_compat_l; lra). assert (U1 : c * s <= c * 1000) by (apply Rmult_le_compat_l; lra).
  assert (P : 0 < c * 900) by lra.
  assert (L2 : c * 900 * k <= c * s * e) by (apply Rmult_le_compat; lra).
  assert (U2 : c * s * e <= c * 1000 * 1) by (apply Rmult_le_compat; lra).
  assert (P2 : 0 < c * 900 * k) by (apply Rmult_lt_0_compat; lra).
  set (z := c * s * e) in *. clearbody z. split.
  - apply Rle_trans with (z / 5); [apply div_incr; lra|]. apply div_anti; lra.
  - apply Rle_trans with (z / 1); [apply div_anti; lra|]. lra.
Qed.

Lemma rec_range : forall t, 9e5 <= t <= 1e6 -> 0 < cen_alphaHep t + cen_alphad t <= 3e-9.
Proof.
  intros t T. unfold cen_alphaHep, cen_alphad.
  pose proof (Rpower_ge1 t 0.6353 ltac:(lra) ltac:(lra)) as R1.
  assert (R2 : t <= Rpower t 1.5). { rewrite <- (Rpower_1 t) at 1 by lra. apply Rle_Rpower; lra. }
  assert (E1 : 0 < exp (- 4.7e5 / t) <= 1).
  { split; [apply exp_pos|]. rewrite <- exp_0. apply exp_le. assert (0 < / t) by (apply Rinv_0_lt_compat; lra).
    unfold Rdiv. assert (0 <= 4.7e5 * / t) by (apply Rmult_le_pos; lra). lra. }
  assert (E2 : 0 < exp (- 9.4e4 / t) <= 1).
  { split; [apply exp_pos|]. rewrite <- exp_0. apply exp_le. assert (0 < / t) by (apply Rinv_0_lt_compat; lra).
    unfold Rdiv. assert (0 <= 9.4e4 * / t) by (apply Rmult_le_pos; lra). lra. }
  set (r1 := Rpower t 0.6353) in *. set (r2 := Rpower t 1.5) in *. set (e1 := exp (- 4.7e5 / t)) in *. set (e2 := exp (- 9.4e4 / t)) in *.
  clearbody r1 r2 e1 e2.
  assert (A1 : 0 < 1.5e-10 / r1 <= 1.5e-10). { split; [apply Rdiv_pos; lra|]. apply Rle_trans with (1.5e-10 / 1); [apply div_anti; lra|lra]. }
  assert (A2 : 0 < 1.9e-3 / r2 <= 1.9e-3 / 9e5). { split; [apply Rdiv_pos; lra|apply div_anti; lra]. }
  set (w := 1.9e-3 / r2) in *. clearbody w.
  assert (A3 : 0 < w * e1) by (apply Rmult_lt_0_compat; lra). assert (A4 : w * e1 <= w * 1) by (apply Rmult_le_compat_l; lra).
  assert (A5 : 0 < w * e1 * (1 + 0.3 * e2)) by (apply Rmult_lt_0_compat; lra).
  assert (A6 : w * e1 * (1 + 0.3 * e2) <= w * 1.3) by (apply Rmult_le_compat; lra). lra.
Qed.

Lemma ten_m12 : Rpower 10 (-12) = 1e-12.
Proof. replace (-12) with (- (12)) by lra. rewrite Rpower_Ropp. replace 12 with (INR 12) by (rewrite INR_IZR_INZ; reflexivity). rewrite Rpower_pow by lra. lra. Qed.
Lemma ten_m30 : Rpower 10 (-30) = 1e-30.
Proof. replace (-30) with (- (30)) by lra. rewrite Rpower_Ropp. replace 30 with (INR 30) by (rewrite INR_IZR_INZ; reflexivity). rewrite Rpower_pow by lra. lra. Qed.

Definition hot : network := c92_network (-12) (-12) (-30) 2.15e-18 true.

Lemma C121_collisions_refuted_aux : exists u x t a x' t' a',
  0 < u /\ 0 < x' < x /\ thermal u 0.24 x t /\ thermal u 0.24 x' t' /\ 9e5 <= t <= 1e6 /\ t' = 1e6 /\
  balanced (colliding hot true) 1 1e-7 0.24 t x a /\ balanced (colliding hot false) 1 1e-7 0.24 t' x' a' /\
  0 < a' < a /\ a < 1.
Proof.
  assert (SH : shipped (recomb hot)) by (left; reflexivity). pose proof (good_shipped _ SH) as GOOD.
  destruct (C102_exists_aux (colliding hot false) 1e-7 0.24 1e6 1 SH ltac:(cbn; lra) ltac:(lra) ltac:(lra) ltac:(lra) ltac:(lra))
    as (x' & a' & X' & A' & B' & _).
  set (u := 3 / 2 * 1.38066e-16 * 1e6 * particles_per_mass x' 0.24 / (1e10 * 1.67262178e-24)).
  assert (TH' : thermal u 0.24 x' 1e6).
  { unfold thermal, u. assert (0 < 1e10 * 1.67262178e-24) by lra. set (q := particles_per_mass x' 0.24). clearbody q.
    replace (3 / 2 * 1.38066e-16 * 1e6 * q / (1e10 * 1.67262178e-24) * 1e10 * 1.67262178e-24) with
      (3 / 2 * 1.38066e-16 * 1e6 * q * (/ (1e10 * 1.67262178e-24) * (1e10 * 1.67262178e-24))) by (unfold Rdiv; ring).
    rewrite Rinv_l by lra. lra. }
  assert (U : 0 < u).
  { unfold u. apply Rdiv_pos; [|lra]. unfold particles_per_mass. apply Rmult_lt_0_compat; lra. }
  set (tm := u * 1e10 * 1.67262178e-24 / (3 / 2 * 1.38066e-16 * particles_per_mass 0 0.24)).
  assert (TM : thermal u 0.24 0 tm).
  { unfold thermal, tm. assert (Q : 0 < 3 / 2 * 1.38066e-16 * particles_per_mass 0 0.24) by (unfold particles_per_mass; lra).
    replace (3 / 2 * 1.38066e-16 * (u * 1e10 * 1.67262178e-24 / (3 / 2 * 1.38066e-16 * particles_per_mass 0 0.24)) * particles_per_mass 0 0.24)
      with (u * 1e10 * 1.67262178e-24 * (/ (3 / 2 * 1.38066e-16 * particles_per_mass 0 0.24) * (3 / 2 * 1.38066e-16 * particles_per_mass 0 0.24)))
      by (unfold Rdiv; ring). rewrite Rinv_l by lra. lra. }
  destruct (C103_exists_aux (colliding hot true) 1e-7 0.24 u tm ltac:(cbn; lra) ltac:(lra) ltac:(lra) U TM ltac:(left; reflexivity))
    as (x & t & a & X & A & TH & B).
  assert (S1 : forall s, self_shield_corr (colliding hot true) 1e-7 s = 1) by reflexivity. rewrite S1 in B.
  destruct (C121_electrons_energy_aux hot 1e-7 0.24 u tm x t a x' 1e6 a') as [XX TT]; auto; try lra.
  { cbn. lra. } { left; reflexivity. }
  pose proof (thermal_pos u 0.24 x t U ltac:(lra) ltac:(lra) TH) as TP. pose proof B as B0. pose proof B' as B0'.
  apply (balanced_iff (colliding hot true)) in B as [E EA]; auto; try (cbn; lra).
  apply (balanced_iff (colliding hot false)) in B' as [E' EA']; auto; try (cbn; lra).
  cbn [photo_factor colliding hot c92_network] in E, EA, E', EA'.
  assert (YV : yy 0.24 = 6 / 76) by (unfold yy; lra).
  assert (GH : gH0 hot = 1e-12) by exact ten_m12. assert (G0 : gHe0 hot = 1e-12) by exact ten_m12. assert (G1 : gHep hot = 1e-30) by exact ten_m30.
  set (f' := 1 * 1 / (x' * 1e-7)) in *. set (f := 1 * 1 / (x * 1e-7)) in *.
  assert (F' : 0 < f') by (unfold f'; apply Rdiv_pos; lra). assert (F : 0 < f) by (unfold f; apply Rdiv_pos; lra).
  assert (FV' : f' * x' = 1e7) by (pose proof (light_value x' 1e-7 ltac:(lra) ltac:(lra)); unfold f'; lra).
  assert (FV : f * x = 1e7) by (pose proof (light_value x 1e-7 ltac:(lra) ltac:(lra)); unfold f; lra).
  clearbody f f'.
  pose proof (hel_range (colliding hot true) t f GOOD TP F) as HR. pose proof (hyd_range (colliding hot true) t f GOOD TP F) as YR.
  pose proof (hel_range (colliding hot false) 1e6 f' GOOD ltac:(lra) F') as HR'. pose proof (hyd_range (colliding hot false) 1e6 f' GOOD ltac:(lra) F') as YR'.
  unfold eb in E, E'. rewrite YV in E, E'.
  pose proof (alpha_range 1e6 ltac:(lra)) as AL'.
  assert (XU' : x' < 1.16) by lra. assert (XU : x < 1.16) by lra.
  assert (FB : 8e6 <= f) by (apply Rmult_le_reg_r with x; lra).
  assert (FB' : 8e6 <= f') by (apply Rmult_le_reg_r with x'; lra).
  assert (HY' : a' <= 1e-7).
  { rewrite EA'. unfold hyd. cbn [recomb collisional colliding b2r]. change (gH0 (colliding hot false)) with (gH0 hot). rewrite GH.
    change (alphaHp (recomb hot) 1e6) with (cen_alphaHp 1e6). apply div_le; lra. }
  assert (XL' : 0.99 <= x') by (rewrite EA' in HY'; lra).
  assert (T : 9e5 <= t).
  { unfold thermal, particles_per_mass in TH, TH'. destruct (Rle_dec 9e5 t) as [|NT]; [assumption|]. exfalso.
    clear -TH TH' X X' XU XL' NT TP.
    assert (t * ((1 - 0.24) + 0.24 / 4 + x * (1 - 0.24)) <= 9e5 * ((1 - 0.24) + 0.24 / 4 + x * (1 - 0.24))) by (apply Rmult_le_compat_r; lra).
    lra. }
  pose proof (alpha_range t ltac:(lra)) as AL. pose proof (rec_range t ltac:(lra)) as RR.
  pose proof (collisional_range 5.85e-11 157809.1 t ltac:(lra) ltac:(lra) ltac:(lra)) as CH.
  pose proof (collisional_range 2.38e-11 285335.4 t ltac:(lra) ltac:(lra) ltac:(lra)) as C0.
  pose proof (collisional_range 5.68e-12 631515.0 t ltac:(lra) ltac:(lra) ltac:(lra)) as C1.
  assert (HY : a <= 1e-4).
  { rewrite EA. unfold hyd. cbn [recomb collisional colliding b2r]. change (gH0 (colliding hot true)) with (gH0 hot). rewrite GH.
    change (alphaHp (recomb hot) t) with (cen_alphaHp t). change (GammaeH0 (recomb hot) t) with (cen_collisional 5.85e-11 157809.1 t).
    apply div_le; lra. }
  assert (HE' : hel (colliding hot false) 1e6 f' <= 1.01).
  { unfold hel. set (q := i1 (colliding hot false) 1e6 f' / alphaHepp (recomb (colliding hot false)) 1e6).
    assert (Q : 0 <= q <= 0.005).
    { unfold q, i1. cbn [recomb collisional colliding b2r]. change (gHep (colliding hot false)) with (gHep hot). rewrite G1.
      change (alphaHepp (recomb hot) 1e6) with (4 * cen_alphaHp 1e6).
      assert (f' <= 1.1e7) by (apply Rmult_le_reg_r with x'; lra).
      split; [apply div_ge; lra|apply div_le; lra]. }
    pose proof (i0_pos (colliding hot false) 1e6 f' GOOD ltac:(lra) F') as I0.
    assert (P : 0 < recHep (colliding hot false) 1e6 / i0 (colliding hot false) 1e6 f').
    { apply Rdiv_pos; [|exact I0]. exact (proj1 (rec_range 1e6 ltac:(lra))). }
    set (p := recHep (colliding hot false) 1e6 / i0 (colliding hot false) 1e6 f') in *. clearbody p q.
    unfold heb. apply div_le; lra. }
  assert (HE : 1.9 <= hel (colliding hot true) t f).
  { unfold hel. set (q := i1 (colliding hot true) t f / alphaHepp (recomb (colliding hot true)) t).
    assert (Q : 100 <= q).
    { unfold q, i1. cbn [recomb collisional colliding b2r]. change (gHep (colliding hot true)) with (gHep hot). rewrite G1.
      change (alphaHepp (recomb hot) t) with (4 * cen_alphaHp t). change (GammaeHep (recomb hot) t) with (cen_collisional 5.68e-12 631515.0 t).
      apply div_ge; lra. }
    set (p := recHep (colliding hot true) t / i0 (colliding hot true) t f).
    assert (P : 0 < p <= 1).
    { unfold p. change (recHep (colliding hot true) t) with (cen_alphaHep t + cen_alphad t).
      unfold i0. cbn [recomb collisional colliding b2r]. change (gHe0 (colliding hot true)) with (gHe0 hot). rewrite G0.
      change (GammaeHe0 (recomb hot) t) with (cen_collisional 2.38e-11 285335.4 t).
      split; [apply Rdiv_pos; lra|apply div_le; lra]. }
    clearbody p q. unfold heb. apply div_ge; lra. }
  assert (D : 0.06 <= x - x') by (rewrite EA in HY; rewrite E, E' at 1; lra).
  exists u, x, t, a, x', 1e6, a'. split; [exact U|]. split; [lra|]. split; [exact TH|]. split; [exact TH'|]. split; [lra|]. split; [reflexivity|].
  split; [exact B0|]. split; [exact B0'|]. split; [|lra]. split; [lra|].
  rewrite EA, EA'. unfold hyd. cbn [recomb collisional colliding b2r].
  change (gH0 (colliding hot true)) with (gH0 hot). change (gH0 (colliding hot false)) with (gH0 hot). rewrite GH.
  change (alphaHp (recomb hot) t) with (cen_alphaHp t). change (GammaeH0 (recomb hot) t) with (cen_collisional 5.85e-11 157809.1 t).
  change (alphaHp (recomb hot) 1e6) with (cen_alphaHp 1e6). change (GammaeH0 (recomb hot) 1e6) with (cen_collisional 5.85e-11 157809.1 1e6).
  pose proof (cen_alphaHp_anti 1e6 t TP TT) as AA.
  assert (FF : 3e5 <= f' - f).
  { assert (f' * (x - x') = x * (f' - f)) by lra. assert (8e6 * 0.06 <= f' * (x - x')) by (apply Rmult_le_compat; lra).
    apply Rmult_le_reg_l with x; lra. }
  set (al := cen_alphaHp t) in *. set (al' := cen_alphaHp 1e6) in *. set (g := cen_collisional 5.85e-11 157809.1 t) in *. 
  set (g6 := cen_collisional 5.85e-11 157809.1 1e6). clearbody al al' g g6.
  set (i := 1 * g + 1e-12 * f). set (i' := 0 * g6 + 1e-12 * f'). assert (II : 0 < i < i') by (unfold i, i'; lra). clearbody i i'.
  apply Rlt_le_trans with (al' / (al' + i)).
  - unfold Rdiv. apply Rmult_lt_compat_l; [lra|]. apply Rinv_lt_contravar; [apply Rmult_lt_0_compat; lra|lra].
  - apply div_le; [lra|]. apply Rmult_le_reg_r with (al + i); [lra|]. replace (al / (al + i) * (al' + i) * (al + i)) with (al * (al' + i)) by (field; lra).
    assert (al' * i <= al * i) by (apply Rmult_le_compat_r; lra). lra.
Qed.
