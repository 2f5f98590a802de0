(** Photoheating of gas that shields itself. *)
From Coq Require Import Reals List Lra.
From Verif Require Import RatesModel RatesSpec RatesProofs CoolModel CoolSpec CoolProofs.
Import ListNotations.
Local Open Scope R_scope.

Lemma C65_shielding_aux : forall n maxiter density u ne v v',
  shipped (recomb (net n)) -> 0 < photo_factor (net n) -> 0 < density -> 0 < u -> selfshield (net n) = true -> he_model n = None ->
  get_equilib_ne (net n) maxiter [density] [u] 0 = Value [ne] -> 1e-40 < ne / density ->
  get_cooling_rate n maxiter density u 0 false = Value v -> get_cooling_rate n maxiter density u 0 true = Value v' ->
  let r := recomb (net n) in let coll := if collisional (net n) then 1 else 0 in
  exists t neutral ionised shield, 0 < neutral /\ 0 < shield < 1 /\
    (let ionisations := photo_factor (net n) * shield * Rpower 10 (lg_gH0 (net n)) in
     hydrogen_balance ne (alphaHp r t) (coll * GammaeH0 r t) ionisations neutral ionised /\
     (v - v') * (density * 1.67262178e-24) =
       Rpower 10 (lg_eH0 n) / Rpower 10 (lg_gH0 (net n)) / shield * (ionisations * (neutral * density))).
Proof.
  intros n maxiter density u ne v v' Sh P D U Hs Hm Eq X A B r coll.
  unfold get_cooling_rate in A, B. rewrite Eq in A, B. unfold cooling1 in A, B. rewrite Hm in B.
  replace (density * (1 - 0)) with density in A, B by ring.
  set (x := ne / density) in *.
  destruct (get_temp x u 0) as [t|] eqn:Gt; try discriminate. destruct (nHe0 (net n) density t x) as [he0|]; try discriminate.
  cbv zeta in A, B. injection A as <-. injection B as <-.
  assert (X0 : 0 < x) by lra.
  destruct (C38_temperature_aux x u 0 ltac:(lra) U ltac:(lra)) as (t' & Gt' & T & _). rewrite Gt in Gt'. injection Gt' as <-.
  destruct (good_shipped _ Sh t T) as (A1 & A2 & A3 & A4 & B1 & B2 & B3). fold r in A1, B1.
  assert (C0 : 0 <= coll) by (unfold coll; destruct (collisional (net n)); lra).
  assert (SC : 0 < self_shield_corr (net n) density t < 1).
  { unfold self_shield_corr. rewrite Hs. cbv zeta. apply shield_formula.
    pose proof (self_shield_dens_pos (net n) t). apply Rdiv_pos; [assumption|]. lra. }
  set (s := self_shield_corr (net n) density t) in *.
  assert (G : 0 < Rpower 10 (lg_gH0 (net n))) by (unfold Rpower; apply exp_pos).
  assert (F : photofac (net n) x density t = photo_factor (net n) * s / ne).
  { unfold photofac. destruct (Rlt_dec 1e-40 x) as [|N]; [|lra]. fold s. f_equal. unfold x. field. lra. }
  assert (NE : 0 < ne) by (replace ne with (x * density) by (unfold x; field; lra); apply Rmult_lt_0_compat; assumption).
  set (J := photo_factor (net n) * s * Rpower 10 (lg_gH0 (net n))).
  assert (J0 : 0 < J) by (unfold J; apply Rmult_lt_0_compat; [apply Rmult_lt_0_compat; lra|assumption]).
  assert (CG : 0 <= coll * GammaeH0 r t) by (apply Rmult_le_pos; lra).
  assert (H0 : nH0 (net n) density t x = alphaHp r t / (alphaHp r t + coll * GammaeH0 r t + J / ne)).
  { unfold nH0. rewrite F. change (b2r (collisional (net n))) with coll. fold r. f_equal. f_equal. unfold gH0, J. field. lra. }
  assert (JN : 0 < J / ne) by (apply Rdiv_pos; assumption).
  exists t, (nH0 (net n) density t x), (1 - nH0 (net n) density t x), s.
  split; [rewrite H0; apply Rdiv_pos; lra|]. split; [exact SC|]. cbv zeta. fold J. split.
  - split; [ring|]. rewrite H0.
    set (al := alphaHp r t) in *. set (cg := coll * GammaeH0 r t) in *. clearbody al cg J. 
    assert (0 < al * ne) by (apply Rmult_lt_0_compat; assumption). assert (0 <= cg * ne) by (apply Rmult_le_pos; lra).
    clear - NE J0 H CG B1 H1 A1. field. repeat split; lra.
  - unfold J. unfold epsH0, epsHe0, epsHep, yy, protonmass.
    set (g := Rpower 10 (lg_gH0 (net n))) in *. set (e := Rpower 10 (lg_eH0 n)).
    match goal with |- context [(?l - 0) * _] => generalize l end. intros lam.
    set (mp := 1.67262178e-24). assert (0 < mp) by (unfold mp; lra). 
    generalize (nH0 (net n) density t x) (nHep (net n) density t x) (Rpower 10 (lg_eHe0 n)) (Rpower 10 (lg_eHep n)). clearbody mp g e s.
    intros h0 hep e1 e2. field. lra.
Qed.

(** A case: hot, dense gas without helium. *)
Lemma hot_equilib : forall n, recomb n = cen92 -> 0 <= photo_factor n -> collisional n = true -> converge n = 10 ->
  forall maxi, exists ne, get_equilib_ne n (S maxi) [0.1] [1e4] 0 = Value [ne] /\ 1 / 2 <= ne / 0.1 <= 1.
Proof.
  intros n Ec P Co Cv maxi.
  assert (Sh : shipped (recomb n)) by (rewrite Ec; left; reflexivity).
  unfold get_equilib_ne, fixed_point. cbn [map]. set (nh := 0.1 * (1 - 0)).
  assert (Nh : nh = 0.1) by (unfold nh; lra).
  assert (One : forall x, 0 <= x <= 1 -> exists y, rooted n 0 [nh] [1e4] [x] = Some [y] /\ 1 / 2 <= y <= 1).
  { intros x X. cbn [rooted]. unfold rooted1.
    destruct (C38_temperature_aux x 1e4 0 ltac:(lra) ltac:(lra) ltac:(lra)) as (t & Gt & T & Et). rewrite Gt.
    exists (nebynh n nh t x 0). split; [reflexivity|].
    destruct (C38_fractions_aux n nh t x 0 Sh P ltac:(lra) T ltac:(lra) (or_introl Co)) as (_ & _ & _ & _ & _ & [_ F9]).
    split; [|lra].
    assert (T1 : 4e5 <= t <= 9e5) by (unfold particles_per_mass in Et; nra).
    unfold nebynh. replace (yy 0) with 0 by (unfold yy; field).
    assert (Q : 0 <= gH0 n * photofac n x nh t).
    { apply Rmult_le_pos; [unfold gH0, Rpower; left; apply exp_pos|]. apply photofac_nonneg; lra. }
    assert (AG : 0 < alphaHp (recomb n) t <= GammaeH0 (recomb n) t).
    { split; [apply (good_shipped _ Sh t T)|]. rewrite Ec. cbn [alphaHp GammaeH0 cen92]. unfold cen_alphaHp, cen_collisional.
      assert (S1 : 1 <= sqrt t) by (rewrite <- sqrt_1; apply sqrt_le_1_alt; lra).
      assert (S2 : 0 <= sqrt (t / 1e5) <= 3).
      { split; [apply sqrt_pos|]. replace 3 with (sqrt (3 * 3)) by (apply sqrt_square; lra). apply sqrt_le_1_alt. lra. }
      assert (R1 : 1 <= Rpower (t / 1000) 0.2).
      { rewrite <- (Rpower_O (t / 1000)) by lra. apply Rle_Rpower; lra. }
      assert (R2 : 0 < Rpower (t / 1e6) 0.7) by (unfold Rpower; apply exp_pos).
      assert (E1 : 1 / 2 <= exp (Ropp 157809.1 / t)).
      { pose proof (exp_ineq1_le (Ropp 157809.1 / t)). assert (157809.1 / t <= 1 / 2).
        { apply (Rmult_le_reg_r t); [lra|]. unfold Rdiv at 1. rewrite Rmult_assoc, Rinv_l by lra. lra. }
        unfold Rdiv in *. lra. }
      apply Rle_trans with 8.4e-11.
      - assert (D1 : forall a b, 0 <= a -> 1 <= b -> 0 <= a / b <= a).
        { intros a b A B. split; [unfold Rdiv; apply Rmult_le_pos; [lra|left; apply Rinv_0_lt_compat; lra]|].
          apply (Rmult_le_reg_r b); [lra|]. unfold Rdiv. rewrite Rmult_assoc, Rinv_l by lra. nra. }
        destruct (D1 8.4e-11 (sqrt t) ltac:(lra) S1) as [U1 V1].
        destruct (D1 _ _ U1 R1) as [U2 V2].
        destruct (D1 _ (1 + Rpower (t / 1e6) 0.7) U2 ltac:(lra)) as [_ V3]. lra.
      - assert (S3 : 100 <= sqrt t).
        { replace 100 with (sqrt (100 * 100)) by (apply sqrt_square; lra). apply sqrt_le_1_alt. lra. }
        apply (Rmult_le_reg_r (1 + sqrt (t / 1e5))); [lra|]. unfold Rdiv at 3. rewrite (Rmult_assoc _ (/ _)), Rinv_l, Rmult_1_r by lra.
        apply Rle_trans with (5.85e-11 * 100 * (1 / 2)); [lra|].
        apply Rmult_le_compat; [lra|lra| |exact E1]. apply Rmult_le_compat_l; lra. }
    unfold nHp, nH0. rewrite Co. cbn [b2r].
    set (al := alphaHp (recomb n) t) in *. set (ga := GammaeH0 (recomb n) t) in *. set (q := gH0 n * photofac n x nh t) in *.
    assert (al / (al + 1 * ga + q) <= 1 / 2); [|lra].
    apply (Rmult_le_reg_r (al + 1 * ga + q)); [lra|]. unfold Rdiv at 1. rewrite Rmult_assoc, Rinv_l by lra. lra. }
  destruct (One nh ltac:(lra)) as (y & E & Y). destruct (One y ltac:(lra)) as (z & E2 & Z).
  exists (y * nh). cbn [helper]. rewrite E. unfold all_close. cbn [combine forallb fst snd].
  assert (ltb (Rabs (y - nh)) (converge n / 2) = true) as -> by (apply ltb_true; apply Rabs_def1; lra).
  cbn [andb fst]. rewrite E2. cbn [combine forallb fst snd].
  assert (ltb (Rabs (z - y)) (converge n) = true) as -> by (apply ltb_true; apply Rabs_def1; lra).
  cbn [andb zip2]. split; [reflexivity|]. rewrite Nh. replace (y * 0.1 / 0.1) with y by lra. exact Y.
Qed.

Lemma hot_rate : forall n ph, recomb (net n) = cen92 -> 0 <= photo_factor (net n) -> collisional (net n) = true ->
  converge (net n) = 10 -> forall maxi, exists v, get_cooling_rate n (S maxi) 0.1 1e4 0 ph = Value v.
Proof.
  intros n ph Ec P Co Cv maxi. destruct (hot_equilib (net n) Ec P Co Cv maxi) as (ne & E & N).
  assert (Sh : shipped (recomb (net n))) by (rewrite Ec; left; reflexivity).
  unfold get_cooling_rate. rewrite E. unfold cooling1. cbv zeta. replace (0.1 * (1 - 0)) with 0.1 by ring.
  destruct (C38_temperature_aux (ne / 0.1) 1e4 0 ltac:(lra) ltac:(lra) ltac:(lra)) as (t & Gt & T & _). rewrite Gt.
  destruct (C38_fractions_aux (net n) 0.1 t (ne / 0.1) 0 Sh P ltac:(lra) T ltac:(lra) (or_introl Co))
      as (_ & _ & _ & (he0 & Eh & _) & _). rewrite Eh. eexists. reflexivity.
Qed.
