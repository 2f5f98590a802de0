(** Proofs about cooling: its sign, the heating and the Compton term. *)
From Coq Require Import List Reals Bool Lia Lra.
From Verif Require Import AbsorptionSpec RatesModel RatesSpec RatesProofs CoolModel CoolSpec CoolProofs.
Import ListNotations.
Local Open Scope R_scope.

(** (gamma - 1) m_p / k_B for energies in (km/s)^2 *)
Lemma temp_range : forall x u helium t, 0 <= x <= 1 + helium / (2 * (1 - helium)) -> 0 < u -> 0 <= helium < 1 ->
  get_temp x u helium = Some t ->
  2 / 3 * 1.67262178e-24 / 1.38066e-16 * 1e10 * u * (4 / (8 - 5 * helium)) <= t <= 400 * u.
Proof.
  intros x u helium t [X0 X] U H E. unfold get_temp in E. cbv zeta in E.
  destruct (Rle_dec _ _) as [L|L]; [|discriminate]. injection E as <-. clear L.
  assert (Hd : (3 + 4 * x) * (1 - helium) <= 7 - 5 * helium).
  { assert (Q : x * (1 - helium) <= (1 + helium / (2 * (1 - helium))) * (1 - helium)) by (apply Rmult_le_compat_r; lra).
    replace ((1 + helium / (2 * (1 - helium))) * (1 - helium)) with (1 - helium / 2) in Q by (field; lra). lra. }
  assert (Hp : 0 <= (3 + 4 * x) * (1 - helium)) by (apply Rmult_le_pos; lra).
  set (q := (3 + 4 * x) * (1 - helium)) in *. clearbody q.
  assert (I1 : / (8 - 5 * helium) <= / (1 + q)) by (apply Rinv_le_contravar; lra).
  assert (I2 : / (1 + q) <= 1) by (rewrite <- Rinv_1 at 2; apply Rinv_le_contravar; lra).
  assert (I0 : 0 < / (8 - 5 * helium)) by (apply Rinv_0_lt_compat; lra).
  assert (U1 : u * / (8 - 5 * helium) <= u * / (1 + q)) by (apply Rmult_le_compat_l; lra).
  assert (U2 : u * / (1 + q) <= u * 1) by (apply Rmult_le_compat_l; lra).
  unfold Rdiv at 4. set (w := u * / (1 + q)) in *.
  replace ((5 / 3 - 1) * 1.67262178e-24 / 1.38066e-16 * (4 / (1 + q) * u * 1e10))
    with ((5 / 3 - 1) * 1.67262178e-24 / 1.38066e-16 * 4 * 1e10 * w) by (unfold w; field; lra).
  replace (2 / 3 * 1.67262178e-24 / 1.38066e-16 * 1e10 * u * (4 * / (8 - 5 * helium)))
    with (2 / 3 * 1.67262178e-24 / 1.38066e-16 * 1e10 * 4 * (u * / (8 - 5 * helium))) by ring.
  clearbody w. split; lra.
Qed.

Lemma C65_sign_aux : forall n maxiter density u helium v,
  shipped (recomb (net n)) -> tables (cool n) -> 0 <= photo_factor (net n) -> 0 < density -> 0 <= helium < 1 ->
  0 <= redshift n -> u <= 2.5e14 ->
  2.7255 * (1 + redshift n) <= 2 / 3 * 1.67262178e-24 / 1.38066e-16 * 1e10 * u * (4 / (8 - 5 * helium)) ->
  get_cooling_rate n maxiter density u helium false = Value v -> 0 <= v.
Proof.
  intros n maxiter density u helium v Sh Ct P D H Z Um Tm E.
  assert (U : 0 < u).
  { destruct (Rlt_dec 0 u) as [A|A]; [exact A|]. exfalso.
    assert (B : 0 < 4 / (8 - 5 * helium)) by (apply Rdiv_pos; lra).
    assert (C : 2 / 3 * 1.67262178e-24 / 1.38066e-16 * 1e10 * u * (4 / (8 - 5 * helium)) <= 0).
    { replace (2 / 3 * 1.67262178e-24 / 1.38066e-16 * 1e10 * u * (4 / (8 - 5 * helium)))
        with (- (- u * (2 / 3 * 1.67262178e-24 / 1.38066e-16 * 1e10 * (4 / (8 - 5 * helium))))) by ring.
      assert (0 <= - u * (2 / 3 * 1.67262178e-24 / 1.38066e-16 * 1e10 * (4 / (8 - 5 * helium)))); [|lra].
      apply Rmult_le_pos; [lra|]. apply Rmult_le_pos; lra. }
    lra. }
  destruct (C65_energy_aux n maxiter density u helium false v Sh Ct P D U H E)
    as (ne & t & nHI & nHII & nHeI & nHeII & nHeIII & Eq & N1 & Gt & T & A1 & A2 & A3 & A4 & A5 & B1 & B2 & B3 & L & B4).
  destruct (C40_solution_aux (net n) maxiter [density] [u] helium Sh P H eq_refl) as [_ So];
    [repeat constructor; lra|repeat constructor; lra|].
  destruct (So [ne] Eq) as [_ Si]. specialize (Si 0%nat density u ne eq_refl eq_refl eq_refl). cbv zeta in Si.
  destruct Si as [[_ N2] _].
  set (nh := density * (1 - helium)) in *. assert (Nh : 0 < nh) by (unfold nh; apply Rmult_lt_0_compat; lra).
  assert (X : 0 <= ne / nh <= 1 + helium / (2 * (1 - helium))).
  { split; [apply Rmult_le_pos; [exact N1|left; apply Rinv_0_lt_compat; exact Nh]|].
    apply (Rmult_le_reg_r nh); [exact Nh|]. unfold Rdiv at 1. rewrite Rmult_assoc, Rinv_l, Rmult_1_r by lra. exact N2. }
  destruct (temp_range _ _ _ _ X U H Gt) as [T1 T2].
  assert (Ir : in_range (cool n) t) by (intros _; lra).
  assert (Cp : 0 <= inverse_compton (cool n) t (redshift n)) by (apply compton_sign; [exact Ct|exact Z|lra]).
  specialize (L Ir). pose proof (Rmult_le_pos _ _ (Rmult_le_pos _ _ N1 N1) Cp) as Q.
  assert (V : 0 <= v * (density * 1.67262178e-24)) by lra.
  destruct (Rle_dec 0 v) as [G|G]; [exact G|]. exfalso.
  assert (0 < (- v) * (density * 1.67262178e-24)) by (apply Rmult_lt_0_compat; lra). lra.
Qed.

Lemma some_eq : forall (a b : R), Some a = Some b -> a = b.
Proof. congruence. Qed.

Lemma rate_split : forall n maxiter density u helium ph v,
  get_cooling_rate n maxiter density u helium ph = Value v ->
  exists ne, get_equilib_ne (net n) maxiter [density] [u] helium = Value [ne] /\ cooling1 n density u helium ne ph = Some v.
Proof.
  intros n maxiter density u helium ph v E. unfold get_cooling_rate in E.
  destruct (get_equilib_ne (net n) maxiter [density] [u] helium) as [ne| | |] eqn:Eq; try discriminate.
  destruct ne as [|ne rest]; [discriminate|]. destruct rest; [|discriminate].
  destruct (cooling1 n density u helium ne ph) as [w|] eqn:Ec; [|discriminate]. injection E as <-.
  exists ne. split; [reflexivity|exact Ec].
Qed.

Lemma prod3 : forall a b c, 0 <= a -> 0 <= b -> 0 <= c -> 0 <= a * b * c.
Proof. intros. apply Rmult_le_pos; [apply Rmult_le_pos|]; assumption. Qed.

Lemma C65_heating_aux : forall n maxiter density u helium v v',
  shipped (recomb (net n)) -> 0 <= photo_factor (net n) -> 0 < density -> 0 < u -> 0 <= helium < 1 ->
  (forall m, he_model n = Some m -> 0 <= he_amp m) ->
  get_cooling_rate n maxiter density u helium false = Value v ->
  get_cooling_rate n maxiter density u helium true = Value v' ->
  v' <= v.
Proof.
  intros n maxiter density u helium v v' Sh P D U H Am E E'.
  destruct (rate_split _ _ _ _ _ _ _ E) as (ne & Eq & C). destruct (rate_split _ _ _ _ _ _ _ E') as (ne' & Eq' & C').
  rewrite Eq in Eq'. injection Eq' as <-.
  destruct (C40_solution_aux (net n) maxiter [density] [u] helium Sh P H eq_refl) as [_ So];
    [repeat constructor; lra|repeat constructor; lra|].
  destruct (So [ne] Eq) as [_ Si]. specialize (Si 0%nat density u ne eq_refl eq_refl eq_refl). cbv zeta in Si.
  destruct Si as [[N1 _] (t & Gt & T & _)].
  unfold cooling1 in C, C'. set (nh := density * (1 - helium)) in *.
  assert (Nh : 0 < nh) by (unfold nh; apply Rmult_lt_0_compat; lra). set (x := ne / nh) in *.
  rewrite Gt in C, C'. destruct (nHe0 (net n) nh t x) as [he0|] eqn:Eh; [|discriminate].
  destruct (C38_fractions_aux (net n) nh t x helium Sh P Nh T H (some_he0 _ _ _ _ _ Sh P Nh T Eh))
    as ([F1 _] & _ & _ & (he0' & Eh' & [F4 _] & [F5 _] & _) & _).
  rewrite Eh in Eh'. injection Eh' as <-.
  cbv zeta in C, C'. apply some_eq in C. apply some_eq in C'. subst v v'.
  match goal with |- (?A - _) * _ * _ / _ <= _ => generalize A end. intros lam.
  assert (Yy : 0 <= yy helium) by (unfold yy, Rdiv; apply Rmult_le_pos; [|left; apply Rinv_0_lt_compat]; lra).
  assert (Hh : 0 <= (nH0 (net n) nh t x * epsH0 n / nh + he0 * yy helium * epsHe0 n / nh +
      nHep (net n) nh t x * yy helium * epsHep n / nh) * photo_factor (net n)).
  { assert (In : 0 <= / nh) by (left; apply Rinv_0_lt_compat; exact Nh).
    pose proof (Rpower_pos 10 (lg_eH0 n)). pose proof (Rpower_pos 10 (lg_eHe0 n)). pose proof (Rpower_pos 10 (lg_eHep n)).
    apply Rmult_le_pos; [|exact P]. unfold epsH0, epsHe0, epsHep, Rdiv.
    assert (Q1 : 0 <= nH0 (net n) nh t x * Rpower 10 (lg_eH0 n) * / nh) by (apply prod3; lra).
    assert (Q2 : 0 <= he0 * yy helium * Rpower 10 (lg_eHe0 n) * / nh) by (apply prod3; [apply Rmult_le_pos|..]; lra).
    assert (Q3 : 0 <= nHep (net n) nh t x * yy helium * Rpower 10 (lg_eHep n) * / nh) by (apply prod3; [apply Rmult_le_pos|..]; lra).
    lra. }
  revert Hh. match goal with |- 0 <= ?A -> _ => generalize A end. intros h Hh.
  assert (Hg : 0 <= match he_model n with Some m => h * he_reion_factor m (redshift n) density | None => h end).
  { destruct (he_model n) as [m|]; [|exact Hh]. apply Rmult_le_pos; [exact Hh|]. unfold he_reion_factor. cbv zeta.
    apply Rmult_le_pos; [apply Am; reflexivity|left; apply Rpower_pos]. }
  revert Hg. match goal with |- 0 <= ?A -> _ => generalize A end. intros g Hg.
  assert (K : 0 <= (1 - helium) ^ 2 * density / protonmass).
  { unfold Rdiv. apply Rmult_le_pos; [apply Rmult_le_pos; [apply pow2_ge_0|lra]|]. left. apply Rinv_0_lt_compat. unfold protonmass; lra. }
  set (k := (1 - helium) ^ 2 * density / protonmass) in *.
  replace ((lam - g) * (1 - helium) ^ 2 * density / protonmass) with ((lam - g) * k) by (unfold k, Rdiv; ring).
  replace ((lam - 0) * (1 - helium) ^ 2 * density / protonmass) with (lam * k) by (unfold k, Rdiv; ring).
  clearbody k. apply Rmult_le_compat_r; lra.
Qed.

Lemma C65_compton_aux : forall n n' maxiter density u helium ne t v v',
  net n' = net n -> cool n' = cool n -> 0 < density -> 0 <= helium < 1 ->
  get_equilib_ne (net n) maxiter [density] [u] helium = Value [ne] ->
  get_temp (ne / (density * (1 - helium))) u helium = Some t ->
  get_cooling_rate n maxiter density u helium false = Value v ->
  get_cooling_rate n' maxiter density u helium false = Value v' ->
  (v - v') * (density * 1.67262178e-24) =
    ne * ne * (inverse_compton (cool n) t (redshift n) - inverse_compton (cool n) t (redshift n')).
Proof.
  intros n n' maxiter density u helium ne t v v' En Ec D H Eq Gt E E'.
  destruct (rate_split _ _ _ _ _ _ _ E) as (ne1 & Eq1 & C). destruct (rate_split _ _ _ _ _ _ _ E') as (ne2 & Eq2 & C').
  rewrite En in Eq2. rewrite Eq in Eq1, Eq2. injection Eq1 as <-. injection Eq2 as <-.
  unfold cooling1 in C, C'. rewrite En, Ec in C'. set (nh := density * (1 - helium)) in *.
  assert (Nh : 0 < nh) by (unfold nh; apply Rmult_lt_0_compat; lra). set (x := ne / nh) in *.
  rewrite Gt in C, C'. destruct (nHe0 (net n) nh t x) as [he0|] eqn:Eh; [|discriminate].
  cbv zeta in C, C'. apply some_eq in C. apply some_eq in C'. subst v v'.
  assert (Ex : ne = x * nh) by (unfold x; field; lra). rewrite Ex.
  assert (Ed : density = nh / (1 - helium)) by (unfold nh; field; lra).
  unfold protonmass. rewrite Ed. clearbody nh x. field. lra.
Qed.

Lemma gff_hot : forall t zz, 0 < zz -> 1e18 * zz ^ 2 <= t -> gff nyx t zz < 0.
Proof.
  intros t zz Z T. unfold gff. cbn [c_nyx nyx]. cbv zeta.
  assert (Y : 1e18 <= t / zz ^ 2).
  { apply (Rmult_le_reg_r (zz ^ 2)); [apply pow_lt; exact Z|]. replace (t / zz ^ 2 * zz ^ 2) with t by (field; lra). exact T. }
  set (y := t / zz ^ 2) in *. destruct (Rle_dec y 3.2e5) as [L|L]; [lra|].
  assert (18 <= log10 y).
  { apply log10_ge; [lra|]. replace 18 with (INR 18) by (cbn; lra). rewrite pow10. lra. }
  lra.
Qed.

Lemma C65_hot_aux : forall t, 4e18 <= t -> free_free nyx t 1 < 0 /\ free_free nyx t 2 < 0.
Proof.
  intros t T. unfold free_free.
  pose proof (gff_hot t 1 ltac:(lra) ltac:(lra)) as A. pose proof (gff_hot t 2 ltac:(lra) ltac:(lra)) as B.
  assert (Q : 0 < sqrt t) by (apply sqrt_lt_R0; lra).
  assert (K : forall zz g, 0 < zz -> g < 0 -> 1.426e-27 * sqrt t * zz ^ 2 * g < 0).
  { intros zz g Hz G. assert (0 < 1.426e-27 * sqrt t * zz ^ 2 * (- g)); [|lra].
    apply Rmult_lt_0_compat; [|lra]. apply Rmult_lt_0_compat; [apply Rmult_lt_0_compat; lra|apply pow_lt; exact Hz]. }
  split; apply K; lra.
Qed.

(** A concrete case: with a large tolerance the first step is accepted. *)
Lemma one_equilib : forall n, shipped (recomb n) -> 0 <= photo_factor n -> collisional n = true -> converge n = 10 ->
  forall maxi, exists ne, get_equilib_ne n (S maxi) [0.1] [100] 0.24 = Value [ne] /\ 0 < ne < 1 /\
    ne / (0.1 * (1 - 0.24)) <= 1 + 0.24 / (2 * (1 - 0.24)).
Proof.
  intros n Sh P Co Cv maxi. unfold get_equilib_ne, fixed_point. cbn [map]. set (nh := 0.1 * (1 - 0.24)).
  assert (Nh : nh = 0.076) by (unfold nh; lra).
  assert (One : forall x, 0 <= x -> exists y, rooted n 0.24 [nh] [100] [x] = Some [y] /\ 0 < y <= 1 + 0.24 / (2 * (1 - 0.24))).
  { intros x X. cbn [rooted]. unfold rooted1.
    destruct (C38_temperature_aux x 100 0.24 X ltac:(lra) ltac:(lra)) as (t & Gt & T & _). rewrite Gt.
    exists (nebynh n nh t x 0.24). split; [reflexivity|].
    destruct (C38_fractions_aux n nh t x 0.24 Sh P ltac:(lra) T ltac:(lra) (or_introl Co))
      as (_ & _ & _ & (he0 & _ & _ & [F5 _] & [F6 _] & _) & _ & [_ F9]).
    split; [|lra]. unfold nebynh.
    assert (Hp : 0 < nHp n nh t x).
    { unfold nHp, nH0. destruct (good_shipped _ Sh t T) as (A & _ & _ & _ & G & _). rewrite Co. cbn [b2r].
      pose proof (photofac_nonneg n x nh t P ltac:(lra)) as Pf. destruct (gpos n) as [G0 _].
      pose proof (Rmult_le_pos _ _ (Rlt_le _ _ G0) Pf) as Q.
      apply Rlt_Rminus. apply (Rmult_lt_reg_r (alphaHp (recomb n) t + 1 * GammaeH0 (recomb n) t + gH0 n * photofac n x nh t)); [lra|].
      unfold Rdiv. rewrite Rmult_assoc, Rinv_l by lra. lra. }
    assert (Y : 0 < yy 0.24) by (unfold yy; lra).
    pose proof (Rmult_le_pos _ _ (Rlt_le _ _ Y) F5). pose proof (Rmult_le_pos _ _ (Rlt_le _ _ Y) F6). lra. }
  destruct (One nh ltac:(lra)) as (y & E & Y). destruct (One y ltac:(lra)) as (z & E2 & Z).
  exists (y * nh). cbn [helper]. rewrite E. unfold all_close. cbn [combine forallb fst snd].
  assert (ltb (Rabs (y - nh)) (converge n / 2) = true) as -> by (apply ltb_true; apply Rabs_def1; lra).
  cbn [andb fst]. rewrite E2. cbn [combine forallb fst snd].
  assert (ltb (Rabs (z - y)) (converge n) = true) as -> by (apply ltb_true; apply Rabs_def1; lra).
  cbn [andb zip2]. split; [reflexivity|]. split; [rewrite Nh; lra|]. fold nh. unfold Rdiv at 1. rewrite Rmult_assoc, Rinv_r by lra. lra.
Qed.

Lemma one_rate : forall n ph, shipped (recomb (net n)) -> 0 <= photo_factor (net n) -> collisional (net n) = true ->
  converge (net n) = 10 -> forall maxi, exists v, get_cooling_rate n (S maxi) 0.1 100 0.24 ph = Value v.
Proof.
  intros n ph Sh P Co Cv maxi. destruct (one_equilib (net n) Sh P Co Cv maxi) as (ne & E & N).
  unfold get_cooling_rate. rewrite E. unfold cooling1. cbv zeta.
  destruct (C38_temperature_aux (ne / (0.1 * (1 - 0.24))) 100 0.24 ltac:(lra) ltac:(lra) ltac:(lra)) as (t & Gt & T & _).
  rewrite Gt.
  destruct (C38_fractions_aux (net n) (0.1 * (1 - 0.24)) t (ne / (0.1 * (1 - 0.24))) 0.24 Sh P ltac:(lra) T ltac:(lra) (or_introl Co))
      as (_ & _ & _ & (he0 & Eh & _) & _). rewrite Eh. eexists. reflexivity.
Qed.

Lemma compton_differs : forall t, 1000 <= t -> inverse_compton sherwood t 3 <> inverse_compton sherwood t 0.
Proof.
  intros t T E. unfold inverse_compton in E. cbv zeta in E. cbn [c_tcmb sherwood] in E. unfold kB in E.
  set (K := 4 * 6.6524e-25 * 7.5657e-15 / (9.10938e-28 * 2.99792e10)) in E.
  assert (Kp : 0 < K) by (unfold K; apply Rdiv_lt_0_compat; lra). clearbody K.
  assert (Q : K * 1.38064852e-16 * (2.7255 ^ 4 * (256 * (t - 10.902) - (t - 2.7255))) = 0) by (ring_simplify; ring_simplify in E; lra).
  apply Rmult_integral in Q as [Q|Q]; [lra|]. apply Rmult_integral in Q as [Q|Q]; lra.
Qed.

Lemma C65_helium_aux : forall n n0 m maxiter density u helium v v' w w',
  net n0 = net n -> cool n0 = cool n -> redshift n0 = redshift n ->
  lg_eH0 n0 = lg_eH0 n -> lg_eHe0 n0 = lg_eHe0 n -> lg_eHep n0 = lg_eHep n -> he_model n = Some m -> he_model n0 = None ->
  -1 < redshift n ->
  get_cooling_rate n maxiter density u helium false = Value v ->
  get_cooling_rate n maxiter density u helium true = Value v' ->
  get_cooling_rate n0 maxiter density u helium false = Value w ->
  get_cooling_rate n0 maxiter density u helium true = Value w' ->
  v = w /\
  v - v' = (w - w') * (he_amp m * Rpower (Rmin (he_thresh m)
    (density * 1.67262178e-24 / (0.0483 * (3 * (hub m * 3.2407789e-18) ^ 2 / (8 * PI * 6.672e-8)) * (1 + redshift n) ^ 3))) (he_exp m)).
Proof.
  intros n n0 m maxiter density u helium v v' w w' E1 E2 E3 E4 E5 E6 E7 E8 Z A B C D.
  unfold get_cooling_rate in A, B, C, D. rewrite E1 in C, D.
  destruct (get_equilib_ne (net n) maxiter [density] [u] helium) as [l| | |]; try discriminate.
  destruct l as [|ne [|? ?]]; try discriminate.
  unfold cooling1 in A, B, C, D. rewrite E1, E2, E3 in C, D. rewrite E8 in D. rewrite E7 in B. unfold epsH0, epsHe0, epsHep in *. rewrite E4, E5, E6 in D.
  set (nh := density * (1 - helium)) in *. set (x := ne / nh) in *.
  destruct (get_temp x u helium) as [t|]; try discriminate. destruct (nHe0 (net n) nh t x) as [he0|]; try discriminate.
  cbv zeta in A, B, C, D. injection A as <-. injection B as <-. injection C as <-. injection D as <-.
  split; [reflexivity|].
  assert (HF : he_reion_factor m (redshift n) density = he_amp m * Rpower (Rmin (he_thresh m)
    (density * 1.67262178e-24 / (0.0483 * (3 * (hub m * 3.2407789e-18) ^ 2 / (8 * PI * 6.672e-8)) * (1 + redshift n) ^ 3))) (he_exp m)).
  { unfold he_reion_factor, protonmass. cbv zeta.
    assert (P3 : Rpower (1 / (1 + redshift n)) (-3) = (1 + redshift n) ^ 3).
    { replace (1 / (1 + redshift n)) with (/ (1 + redshift n)) by (unfold Rdiv; ring). unfold Rpower. rewrite ln_Rinv by lra.
      replace (-3 * - ln (1 + redshift n)) with (INR 3 * ln (1 + redshift n)) by (cbn [INR]; ring). fold (Rpower (1 + redshift n) (INR 3)).
      apply Rpower_pow. lra. }
    rewrite P3. rewrite (Rmult_comm 1.67262178e-24 density).
    set (od := density * 1.67262178e-24 / _). clearbody od. unfold Rmin. destruct (Rle_dec (he_thresh m) od); reflexivity. }
  rewrite HF. match goal with |- context [(he_amp m * Rpower ?a ?b)] => generalize (he_amp m * Rpower a b) end. intros k.
  match goal with |- context [(?h * k)] => generalize h end. intros hh.
  match goal with |- context [?l - 0] => generalize l end. intros lam. unfold Rdiv. ring.
Qed.
