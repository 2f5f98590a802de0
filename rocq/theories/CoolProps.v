(** Cooling and heating rates of the rate network: theorems. *)
From Coq Require Import List Reals Lra.
From Verif Require Import AbsorptionSpec RatesModel RatesSpec RatesProofs CoolModel CoolSpec CoolProofs CoolProofs2 CoolProofs3 CoolProofs4.
Import ListNotations.
Local Open Scope R_scope.

(** C65.  The rate returned (per gram) times the mass density is the energy budget of a cubic centimetre: losses in
    encounters of electrons with each ion, a term proportional to the square of the electron density for the microwave
    background, and minus the photoheating of each species.  The number densities add up to those of hydrogen and helium and
    are neutral to the tolerance of the solver.  The encounters never heat. *)
Theorem C65_energy : forall n maxiter density u helium ph v,
  shipped (recomb (net n)) -> tables (cool n) -> 0 <= photo_factor (net n) -> 0 < density -> 0 < u -> 0 <= helium < 1 ->
  get_cooling_rate n maxiter density u helium ph = Value v ->
  exists ne t nHI nHII nHeI nHeII nHeIII,
    get_equilib_ne (net n) maxiter [density] [u] helium = Value [ne] /\ 0 <= ne /\
    get_temp (ne / (density * (1 - helium))) u helium = Some t /\ 0 < t /\
    0 <= nHI /\ 0 <= nHII /\ 0 <= nHeI /\ 0 <= nHeII /\ 0 <= nHeIII /\
    nHI + nHII = density * (1 - helium) /\ nHeI + nHeII + nHeIII = density * helium / 4 /\
    Rabs (nHII + nHeII + 2 * nHeIII - ne) < converge (net n) * (density * (1 - helium)) /\
    (let lost := encounters ne [(collisional_H0 (cool n) t, nHI); (collisional_He0 (cool n) t, nHeI); (collisional_HeP (cool n) t, nHeII);
                     (recomb_Hp (cool n) t, nHII); (recomb_HeP (cool n) t, nHeII); (recomb_HePP (cool n) t, nHeIII);
                     (free_free (cool n) t 1, nHII + nHeII); (free_free (cool n) t 2, nHeIII)] in
     (in_range (cool n) t -> 0 <= lost) /\
     v * (density * 1.67262178e-24) =
       lost + ne * ne * inverse_compton (cool n) t (redshift n)
       - (if ph then photo_factor (net n) * heat_factor n density *
            (Rpower 10 (lg_eH0 n) * nHI + Rpower 10 (lg_eHe0 n) * nHeI + Rpower 10 (lg_eHep n) * nHeII) else 0)).
Proof. exact C65_energy_aux. Qed.
Print Assumptions C65_energy.

(** C65.  What an electron loses to each species is the energy of the excitations plus, for every ionisation, the ionisation energy; for all
    three tables (Nyx has its own fit for neutral hydrogen). *)
Theorem C65_collisions : forall c tc t, (c = kwh /\ tc = 1e5) \/ (c = sherwood /\ tc = 5e7) \/ (c = nyx /\ tc = 5e7) -> 0 < t ->
  (c <> nyx -> collisional_H0 c t = excitation 7.5e-19 0 118348 tc t + 13.5984 * 1.60218e-12 * GammaeH0 (c_recomb c) t) /\
  collisional_He0 c t = excitation 9.1e-27 (-0.1687) 473638 tc t + 24.5874 * 1.60218e-12 * GammaeHe0 (c_recomb c) t /\
  collisional_HeP c t = excitation 5.54e-17 (-0.397) 473638 tc t + 54.417760 * 1.60218e-12 * GammaeHep (c_recomb c) t.
Proof. exact C65_collisions_aux. Qed.
Print Assumptions C65_collisions.

(** C65.  The energies of the transitions lie below the ionisation energies for hydrogen and ionised helium, but the one used for neutral
    helium, which is that of ionised helium, is larger than the energy that ionises it. *)
Theorem C65_excitation_refuted :
  1.38064852e-16 * 118348 < 13.5984 * 1.60218e-12 /\ 1.38064852e-16 * 473638 < 54.417760 * 1.60218e-12 /\
  24.5874 * 1.60218e-12 < 1.38064852e-16 * 473638 /\
  forall t, 0 < t -> excite_He0 kwh t = 9.1e-27 / 5.54e-17 * Rpower t (0.397 - 0.1687) * excite_HeP kwh t.
Proof. exact C65_excitation_aux. Qed.
Print Assumptions C65_excitation_refuted.

(** C65.  Without photoheating gas that is warmer than the microwave background never heats up, for all tables (the bound
    on the energy matters for Nyx only). *)
Theorem C65_sign : forall n maxiter density u helium v,
  shipped (recomb (net n)) -> tables (cool n) -> 0 <= photo_factor (net n) -> 0 < density -> 0 <= helium < 1 ->
  0 <= redshift n -> u <= 2.5e14 ->
  2.7255 * (1 + redshift n) <= 2 / 3 * 1.67262178e-24 / 1.38066e-16 * 1e10 * u * (4 / (8 - 5 * helium)) ->
  get_cooling_rate n maxiter density u helium false = Value v -> 0 <= v.
Proof. exact C65_sign_aux. Qed.
Print Assumptions C65_sign.

(** C65.  Photoheating only lowers the net cooling. *)
Theorem C65_heating : forall n maxiter density u helium v v',
  shipped (recomb (net n)) -> 0 <= photo_factor (net n) -> 0 < density -> 0 < u -> 0 <= helium < 1 ->
  (forall m, he_model n = Some m -> 0 <= he_amp m) ->
  get_cooling_rate n maxiter density u helium false = Value v ->
  get_cooling_rate n maxiter density u helium true = Value v' ->
  v' <= v.
Proof. exact C65_heating_aux. Qed.
Print Assumptions C65_heating.

(** C65.  The model of helium reionisation multiplies the heating, and nothing else, by a power of the overdensity in baryons, up to a
    largest overdensity. *)
Theorem C65_helium : forall n n0 m maxiter density u helium v v' w w',
  net n0 = net n -> cool n0 = cool n -> redshift n0 = redshift n ->
  lg_eH0 n0 = lg_eH0 n -> lg_eHe0 n0 = lg_eHe0 n -> lg_eHep n0 = lg_eHep n -> he_model n = Some m -> he_model n0 = None ->
  -1 < redshift n ->
  get_cooling_rate n maxiter density u helium false = Value v ->
  get_cooling_rate n maxiter density u helium true = Value v' ->
  get_cooling_rate n0 maxiter density u helium false = Value w ->
  get_cooling_rate n0 maxiter density u helium true = Value w' ->
  v = w /\
  v - v' = (w - w') * (he_amp m * Rpower (Rmin (he_thresh m)
    (density * 1.67262178e-24 / (0.0483 * (3 * (hub m * 3.2407789e-18) ^ 2 / (8 * PI * 6.672e-8)) * (1 + redshift n) ^ 3))) (he_exp m)).
Proof. exact C65_helium_aux. Qed.
Print Assumptions C65_helium.

(** C65.  The Compton coefficient is one per electron ("Multiply this only by n_e"), but the part of the rate that
    depends on the microwave background is proportional to the square of the electron density: off by a factor ne
    (in cm^-3), whatever the gas. *)
Theorem C65_compton : forall n n' maxiter density u helium ne t v v',
  net n' = net n -> cool n' = cool n -> 0 < density -> 0 <= helium < 1 ->
  get_equilib_ne (net n) maxiter [density] [u] helium = Value [ne] ->
  get_temp (ne / (density * (1 - helium))) u helium = Some t ->
  get_cooling_rate n maxiter density u helium false = Value v ->
  get_cooling_rate n' maxiter density u helium false = Value v' ->
  let physical := ne * (inverse_compton (cool n) t (redshift n) - inverse_compton (cool n) t (redshift n')) in
  (v - v') * (density * 1.67262178e-24) = ne * physical.
Proof.
  intros n n' maxiter density u helium ne t v v' A B C D E F G H physical. unfold physical.
  rewrite <- (Rmult_assoc ne ne). exact (C65_compton_aux n n' maxiter density u helium ne t v v' A B C D E F G H).
Qed.
Print Assumptions C65_compton.

(** A network like the default one at redshift z. *)
Definition example_thermal (z : R) : thermal :=
  Thermal (Network verner96 (-12) (-12) (-15) 1 true true 2.27e-18 0.17 10) sherwood z (-24) (-24) (-26) None.

(** C65.  So the rate is not the one with the documented weight. *)
Theorem C65_compton_refuted : forall m, exists ne t v v',
  get_equilib_ne (net (example_thermal 3)) (S m) [0.1] [100] 0.24 = Value [ne] /\
  get_temp (ne / (0.1 * (1 - 0.24))) 100 0.24 = Some t /\
  get_cooling_rate (example_thermal 3) (S m) 0.1 100 0.24 false = Value v /\
  get_cooling_rate (example_thermal 0) (S m) 0.1 100 0.24 false = Value v' /\
  (v - v') * (0.1 * 1.67262178e-24) <> ne * (inverse_compton sherwood t 3 - inverse_compton sherwood t 0).
Proof.
  intros m.
  assert (Sh : forall z, shipped (recomb (net (example_thermal z)))) by (right; left; reflexivity).
  assert (P : forall z, 0 <= photo_factor (net (example_thermal z))) by (intros; cbn [photo_factor net example_thermal]; lra).
  destruct (one_rate (example_thermal 3) false (Sh 3) (P 3) eq_refl eq_refl m) as (v & Ev).
  destruct (one_rate (example_thermal 0) false (Sh 0) (P 0) eq_refl eq_refl m) as (w & Ew).
  destruct (one_equilib (net (example_thermal 3)) (Sh 3) (P 3) eq_refl eq_refl m) as (ne & En & N & N').
  assert (N0 : 0 < ne / (0.1 * (1 - 0.24))) by lra.
  destruct (C38_temperature_aux (ne / (0.1 * (1 - 0.24))) 100 0.24 ltac:(lra) ltac:(lra) ltac:(lra)) as (t & Gt & T & _).
  destruct (temp_range _ 100 0.24 t (conj (Rlt_le _ _ N0) N') ltac:(lra) ltac:(lra) Gt) as [L _].
  exists ne, t, v, w. repeat (split; [assumption|]).
  rewrite (C65_compton (example_thermal 3) (example_thermal 0) (S m) 0.1 100 0.24 ne t v w eq_refl eq_refl
             ltac:(lra) ltac:(lra) En Gt Ev Ew).
  change (cool (example_thermal 3)) with sherwood. change (redshift (example_thermal 3)) with 3.
  change (redshift (example_thermal 0)) with 0. pose proof (compton_differs t ltac:(lra)) as D.
  set (a := inverse_compton sherwood t 3) in *. set (b := inverse_compton sherwood t 0) in *. clearbody a b.
  intros Q. assert (Z : (ne - 1) * (ne * (a - b)) = 0) by lra.
  apply Rmult_integral in Z as [Z|Z]; [lra|]. apply Rmult_integral in Z as [Z|Z]; lra.
Qed.
Print Assumptions C65_compton_refuted.

(** C65.  The range for the Nyx table is needed: the Gaunt factor turns negative. *)
Theorem C65_hot_refuted : forall t, 4e18 <= t -> free_free nyx t 1 < 0 /\ free_free nyx t 2 < 0.
Proof. exact C65_hot_aux. Qed.
Print Assumptions C65_hot_refuted.

(** C65.  The background heats gas that shields itself as if nothing were shielded: every ionisation that does take place gives the gas the
    energy of one in the open divided by the fraction of the background that gets through.  (Gas without helium.) *)
Theorem C65_shielding_refuted : forall n maxiter density u ne v v',
  shipped (recomb (net n)) -> 0 < photo_factor (net n) -> 0 < density -> 0 < u -> selfshield (net n) = true -> he_model n = None ->
  get_equilib_ne (net n) maxiter [density] [u] 0 = Value [ne] -> 1e-40 < ne / density ->
  get_cooling_rate n maxiter density u 0 false = Value v -> get_cooling_rate n maxiter density u 0 true = Value v' ->
  let r := recomb (net n) in let coll := if collisional (net n) then 1 else 0 in
  exists t neutral ionised shield, 0 < neutral /\ 0 < shield < 1 /\
    (let ionisations := photo_factor (net n) * shield * Rpower 10 (lg_gH0 (net n)) in
     hydrogen_balance ne (alphaHp r t) (coll * GammaeH0 r t) ionisations neutral ionised /\
     (v - v') * (density * 1.67262178e-24) =
       Rpower 10 (lg_eH0 n) / Rpower 10 (lg_gH0 (net n)) / shield * (ionisations * (neutral * density))).
Proof. exact C65_shielding_aux. Qed.
Print Assumptions C65_shielding_refuted.

Example C65_shielding_example : forall m,
  let n := Thermal (Network cen92 (-12) (-12) (-15) 1 true true 2.27e-18 0.17 10) sherwood 3 (-24) (-24) (-26) None in
  exists ne v v', get_equilib_ne (net n) (S m) [0.1] [1e4] 0 = Value [ne] /\ 1e-40 < ne / 0.1 /\
    get_cooling_rate n (S m) 0.1 1e4 0 false = Value v /\ get_cooling_rate n (S m) 0.1 1e4 0 true = Value v' /\
    exists ionisations, 0 < ionisations /\ Rpower 10 (-24) / Rpower 10 (-12) * ionisations < (v - v') * (0.1 * 1.67262178e-24).
Proof.
  intros m n. assert (P : 0 <= photo_factor (net n)) by (cbn [photo_factor net n]; lra).
  destruct (hot_equilib (net n) eq_refl P eq_refl eq_refl m) as (ne & E & N).
  destruct (hot_rate n false eq_refl P eq_refl eq_refl m) as (v & Ev). destruct (hot_rate n true eq_refl P eq_refl eq_refl m) as (v' & Ev').
  exists ne, v, v'. split; [exact E|]. split; [lra|]. split; [exact Ev|]. split; [exact Ev'|].
  destruct (C65_shielding_refuted n (S m) 0.1 1e4 ne v v' (or_introl eq_refl) ltac:(cbn [photo_factor net n]; lra) ltac:(lra) ltac:(lra)
    eq_refl eq_refl E ltac:(lra) Ev Ev') as (t & h & i & s & H & S' & _ & ->).
  assert (G : forall x, 0 < Rpower 10 x) by (intros; unfold Rpower; apply exp_pos).
  cbn [lg_eH0 lg_gH0 net n photo_factor]. set (g := Rpower 10 (-12)). set (e := Rpower 10 (-24)).
  assert (0 < g) by apply G. assert (0 < e) by apply G.
  exists (1 * s * g * (h * 0.1)).
  assert (K : 0 < 1 * s * g * (h * 0.1)) by (apply Rmult_lt_0_compat; [apply Rmult_lt_0_compat; lra|lra]). split; [exact K|].
  apply Rmult_lt_compat_r; [exact K|]. assert (0 < e / g) by (apply Rdiv_lt_0_compat; assumption).
  set (q := e / g) in *. clearbody q. apply (Rmult_lt_reg_r s); [lra|]. unfold Rdiv. rewrite Rmult_assoc, Rinv_l by lra. nra.
Qed.

Example C65_example : forall m, exists v w ne,
  get_cooling_rate (example_thermal 3) (S m) 0.1 100 0.24 false = Value v /\ 0 <= v /\
  get_cooling_rate (example_thermal 3) (S m) 0.1 100 0.24 true = Value w /\ w <= v /\
  get_equilib_ne (net (example_thermal 3)) (S m) [0.1] [100] 0.24 = Value [ne] /\ 0 < ne < 1.
Proof.
  intros m.
  assert (Sh : shipped (recomb (net (example_thermal 3)))) by (right; left; reflexivity).
  assert (P : 0 <= photo_factor (net (example_thermal 3))) by (cbn [photo_factor net example_thermal]; lra).
  destruct (one_rate (example_thermal 3) false Sh P eq_refl eq_refl m) as (v & Ev).
  destruct (one_rate (example_thermal 3) true Sh P eq_refl eq_refl m) as (w & Ew).
  destruct (one_equilib (net (example_thermal 3)) Sh P eq_refl eq_refl m) as (ne & En & N & _).
  exists v, w, ne. split; [exact Ev|]. split.
  - apply (C65_sign (example_thermal 3) (S m) 0.1 100 0.24); try assumption; try lra;
      [right; left; reflexivity|cbn [redshift example_thermal]; lra|cbn [redshift example_thermal]; lra].
  - split; [exact Ew|]. split; [|split; assumption].
    apply (C65_heating (example_thermal 3) (S m) 0.1 100 0.24); try assumption; try lra. intros q H; discriminate H.
Qed.

(** The defaults of the network, switched on: the heating is unchanged. *)
Example C65_helium_example : forall m,
  let e := example_thermal 3 in
  let n := Thermal (net e) (cool e) (redshift e) (lg_eH0 e) (lg_eHe0 e) (lg_eHep e) (Some (HeliumHeating 0.7 10 1 0)) in
  exists v v' w w', get_cooling_rate n (S m) 0.1 100 0.24 false = Value v /\ get_cooling_rate n (S m) 0.1 100 0.24 true = Value v' /\
    get_cooling_rate e (S m) 0.1 100 0.24 false = Value w /\ get_cooling_rate e (S m) 0.1 100 0.24 true = Value w' /\ v - v' = w - w'.
Proof.
  intros m e n.
  assert (Sh : forall z, shipped (recomb (net (example_thermal z)))) by (right; left; reflexivity).
  assert (P : forall z, 0 <= photo_factor (net (example_thermal z))) by (intros; cbn [photo_factor net example_thermal]; lra).
  destruct (one_rate n false (Sh 3) (P 3) eq_refl eq_refl m) as (v & Ev). destruct (one_rate n true (Sh 3) (P 3) eq_refl eq_refl m) as (v' & Ev').
  destruct (one_rate e false (Sh 3) (P 3) eq_refl eq_refl m) as (w & Ew). destruct (one_rate e true (Sh 3) (P 3) eq_refl eq_refl m) as (w' & Ew').
  exists v, v', w, w'. repeat (split; [assumption|]).
  assert (Z : -1 < redshift n) by (change (-1 < 3); lra).
  destruct (C65_helium n e (HeliumHeating 0.7 10 1 0) (S m) 0.1 100 0.24 v v' w w' eq_refl eq_refl eq_refl eq_refl eq_refl eq_refl eq_refl eq_refl
    Z Ev Ev' Ew Ew') as (_ & ->). cbn [he_amp he_exp].
  match goal with |- context [Rpower ?a 0] => generalize a end. intros a. unfold Rpower. rewrite Rmult_0_l, exp_0. ring.
Qed.
