(** Property C39: the self-shielded neutral fraction. *)
From Coq Require Import Reals List Bool Arith Lia Lra.
From Verif Require Import NeutralModel NeutralSpec NeutralProofs NeutralProofs2.
Import ListNotations.
Local Open Scope R_scope.

(** C39.  For every background, density and temperature the neutral fraction is
    the only number not above one in ionisation balance with an attenuated
    photoionisation rate between zero and that of the background.  It lies
    between zero and the fraction in collisional equilibrium. *)
Theorem C39_balance : forall b nH t, 0 < gamma_UVB b -> 0 < nH -> 0 < t ->
  exists photo, 0 < photo < gamma_UVB b /\ photo = photo_rate b nH t /\
  0 < neutral_fraction b nH t < recomb_rate t / (recomb_rate t + collisional_rate t) /\
  recomb_rate t / (recomb_rate t + collisional_rate t) < 1 /\
  (forall x, x <= 1 ->
     (in_balance (recomb_rate t) (collisional_rate t) photo nH x <->
      x = neutral_fraction b nH t)).
Proof. exact C39_balance_aux. Qed.
Print Assumptions C39_balance.

(** Denser gas is better shielded and more neutral. *)
Theorem C39_density : forall b nH nH' t, 0 < gamma_UVB b -> 0 < nH < nH' ->
  photo_rate b nH' t < photo_rate b nH t /\
  neutral_fraction b nH t < neutral_fraction b nH' t.
Proof. exact C39_density_aux. Qed.
Print Assumptions C39_density.

(** A stronger background leaves less neutral gas. *)
Theorem C39_background : forall b b' nH t,
  gray_opac b = gray_opac b' -> f_bar b = f_bar b' ->
  0 < gamma_UVB b < gamma_UVB b' -> 0 < nH ->
  neutral_fraction b' nH t < neutral_fraction b nH t.
Proof. exact C39_background_aux. Qed.
Print Assumptions C39_background.

(** The background of every redshift in the table is positive; above it there
    is none, and negative redshifts are refused. *)
Theorem C39_tables : forall z fbar,
  (z < 0 -> uvb_of z fbar = None) /\
  (8 < z -> uvb_of z fbar = Some None) /\
  (0 <= z <= 8 -> exists b, uvb_of z fbar = Some (Some b) /\
      0 < gamma_UVB b /\ 0 < gray_opac b /\ f_bar b = fbar).
Proof. exact C39_tables_aux. Qed.
Print Assumptions C39_tables.

(** Only gas whose hydrogen density is strictly above the star formation
    threshold is changed, each particle on its own; fractions stay in [0,1]. *)
Theorem C39_starforming : forall g densities codes i d c,
  0 < conv g -> 0 < thresh g ->
  (forall b, bg g = Some b -> 0 < gamma_UVB b) ->
  length densities = length codes ->
  nth_error densities i = Some d -> nth_error codes i = Some c ->
  exists f, nth_error (get_reproc_HI g densities codes) i = Some f /\
    (0 <= c <= 1 -> 0 <= f <= 1) /\
    (sf_neutral g = false \/ 0.76 * (d * conv g) <= thresh g -> f = c) /\
    (sf_neutral g = true -> thresh g < 0.76 * (d * conv g) ->
       match bg g with
       | None => f = 1
       | Some b => f = neutral_fraction b (d * conv g) 1e4
       end).
Proof. exact C39_starforming_aux. Qed.
Print Assumptions C39_starforming.

(** The formula takes the hydrogen density, and the threshold test treats
    0.76 of the gas as hydrogen, but the fraction is evaluated at the density
    of all the gas: the reported fraction exceeds the one of the gas. *)
Theorem C39_hydrogen_density_refuted : forall g b densities codes i d c,
  0 < conv g -> 0 < thresh g -> bg g = Some b -> 0 < gamma_UVB b ->
  sf_neutral g = true -> length densities = length codes ->
  nth_error densities i = Some d -> nth_error codes i = Some c ->
  thresh g < 0.76 * (d * conv g) ->
  exists f, nth_error (get_reproc_HI g densities codes) i = Some f /\
    neutral_fraction b (0.76 * (d * conv g)) 1e4 < f.
Proof. exact C39_hydrogen_density_aux. Qed.
Print Assumptions C39_hydrogen_density_refuted.

(** Hotter gas recombines more slowly, is ionised faster by collisions, is
    less shielded and less neutral. *)
Theorem C39_temperature : forall b nH t t', 0 < gamma_UVB b -> 0 < nH -> 0 < t < t' ->
  recomb_rate t' < recomb_rate t /\ collisional_rate t < collisional_rate t' /\
  photo_rate b nH t < photo_rate b nH t' /\
  neutral_fraction b nH t' < neutral_fraction b nH t.
Proof. exact C39_temperature_aux. Qed.
Print Assumptions C39_temperature.

(** The self-shielding density is 6.73e-3 at the reference opacity, rate,
    temperature and baryon fraction, and its cube scales as the square of the
    rate, the 0.51 power of the temperature, and inversely with the square of
    the opacity and with the baryon fraction. *)
Theorem C39_shielding : forall b t,
  0 < gray_opac b -> 0 < gamma_UVB b -> 0 < f_bar b -> 0 < t ->
  self_shield_dens b t ^ 3 * (gray_opac b / 2.49e-18) ^ 2 * (f_bar b / 0.17)
  = 6.73e-3 ^ 3 * Rpower (t / 1e4) 0.51 * (gamma_UVB b / 1e-12) ^ 2.
Proof. exact C39_shielding_aux. Qed.
Print Assumptions C39_shielding.

(** Gas at [r] times the shielding density: the rate of the background in the
    limit of thin gas, a power law tail for thick gas, and the value at the
    shielding density itself. *)
Theorem C39_attenuation : forall b t r, 0 < gamma_UVB b -> 0 < r ->
  photo_rate b (self_shield_dens b t) t
    = (0.98 * Rpower 2 (- 2.28) + 0.02 * Rpower 2 (- 0.84)) * gamma_UVB b /\
  (1 - 2.2344 * Rpower r 1.64 - 0.0168 * r) * gamma_UVB b
    <= photo_rate b (r * self_shield_dens b t) t
    <= (0.98 * Rpower r (- 3.7392) + 0.02 * Rpower r (- 0.84)) * gamma_UVB b.
Proof. exact C39_attenuation_aux. Qed.
Print Assumptions C39_attenuation.

(** The recombination coefficient of Hui and Gnedin 1997 in the variable of
    their fit, and the collisional rate in units of 1e5 K. *)
Theorem C39_rates : forall c, 0 < c ->
  recomb_rate (315614 / (0.522 * c))
    = 1.269e-13 * Rpower (0.522 * c) 1.503 / Rpower (1 + Rpower c 0.47) 1.923 /\
  collisional_rate (1e5 * c ^ 2)
    = 1.17e-10 * sqrt 1e5 * c * exp (- 1.57809 / c ^ 2) / (1 + c).
Proof. exact C39_rates_aux. Qed.
Print Assumptions C39_rates.

(** At every redshift from 0 to 8 the background lies on the line between the
    published values of the neighbouring whole redshifts. *)
Theorem C39_background_values : forall k w fbar, (k < 8)%nat -> 0 <= w <= 1 ->
  uvb_of (INR k + w) fbar
  = Some (Some (Uvb
      (part_way (published_opacity k) (published_opacity (k + 1)) w * 1e-20)
      (part_way (published_gamma k) (published_gamma (k + 1)) w * 1e-16) fbar)).
Proof. exact C39_background_values_aux. Qed.
Print Assumptions C39_background_values.

(** The background half way between redshifts 2 and 3. *)
Example C39_values_example :
  uvb_of (INR 2 + 0.5) 0.17 = Some (Some (Uvb (221 * 1e-20) (5765 * 1e-16) 0.17)) /\
  forall b, uvb_of (INR 2 + 0.5) 0.17 = Some (Some b) ->
    neutral_fraction b 0.1 2e4 < neutral_fraction b 0.1 1e4.
Proof.
  assert (V : uvb_of (INR 2 + 0.5) 0.17 = Some (Some (Uvb (221 * 1e-20) (5765 * 1e-16) 0.17))).
  { rewrite C39_background_values by (lia || lra).
    unfold part_way, published_opacity, published_gamma. cbn [nth Nat.add].
    do 2 f_equal. f_equal; lra. }
  split; auto. intros b B. rewrite V in B. injection B as <-.
  apply C39_temperature; cbn [gamma_UVB]; lra.
Qed.

Example C39_example : exists b, uvb_of 2.5 0.17 = Some (Some b) /\
  exists f, nth_error (get_reproc_HI (Gas (Some b) true 0.1 2) [0.01; 1] [0.001; 0.5]) 1 = Some f /\
    neutral_fraction b (0.76 * (1 * 2)) 1e4 < f <= 1.
Proof.
  destruct (proj2 (proj2 (C39_tables 2.5 0.17)) ltac:(lra)) as (b & E & G & _).
  exists b. split; auto.
  destruct (C39_hydrogen_density_refuted (Gas (Some b) true 0.1 2) b [0.01; 1] [0.001; 0.5] 1 1 0.5)
    as (f & F & L); auto; try (cbn [conv thresh]; lra).
  destruct (C39_starforming (Gas (Some b) true 0.1 2) [0.01; 1] [0.001; 0.5] 1 1 0.5)
    as (f' & F' & R' & _); auto; try (cbn [conv thresh]; lra).
  { intros b' B. cbn [bg] in B. injection B as <-. auto. }
  rewrite F in F'. injection F' as <-. exists f. split; auto. split; auto.
  apply R'. lra.
Qed.
