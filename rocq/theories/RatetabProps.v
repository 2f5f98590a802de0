(** Properties C119 and C120: the tables of rates and cooling coefficients. *)
From Coq Require Import Reals List Lra.
From Verif Require RatesProofs.
From Verif Require Import RatesModel CoolModel RatetabSpec RatetabProofs RatetabProofs2.
Import ListNotations.
Local Open Scope R_scope.

(** C119.  The table "C92" is that of Cen 1992 at every positive temperature. *)
Theorem C119_cen : forall T, 0 < T ->
  alphaHp cen92 T = cen_hydrogenic 8.4e-11 T /\
  alphaHep cen92 T = 1.5e-10 * Rpower T (-0.6353) /\
  alphad cen92 T = dielectronic 1.9e-3 470000 94000 T /\
  alphaHepp cen92 T = cen_hydrogenic 3.36e-10 T /\
  GammaeH0 cen92 T = cen_ionisation 5.85e-11 157809.1 T /\
  GammaeHe0 cen92 T = cen_ionisation 2.38e-11 285335.4 T /\
  GammaeHep cen92 T = cen_ionisation 5.68e-12 631515 T.
Proof. exact C119_cen_aux. Qed.
Print Assumptions C119_cen.

(** C119.  The table "V96": Verner and Ferland 1996, two fits for singly ionised
    helium blended between 6e5 and 8e5 K, and Voronov 1997. *)
Theorem C119_verner : forall T, 0 < T ->
  let cool_fit := verner_ferland 3.294e-11 0.691 15.54 36760000 in
  let hot_fit := verner_ferland 9.356e-10 0.7892 0.04266 4677000 in
  alphaHp verner96 T = verner_ferland 7.982e-11 0.748 3.148 703600 T /\
  (T < 600000 -> alphaHep verner96 T = cool_fit T) /\
  (600000 < T < 800000 -> alphaHep verner96 T = blend 600000 800000 cool_fit hot_fit T) /\
  (800000 < T -> alphaHep verner96 T = hot_fit T) /\
  alphad verner96 T = dielectronic 1.23e-3 472000 94000 T /\
  alphaHepp verner96 T = verner_ferland 1.891e-10 0.7524 9.37 2774000 T /\
  GammaeH0 verner96 T = voronov 13.6 0 2.91e-8 0.232 0.39 T /\
  GammaeHe0 verner96 T = voronov 24.6 0 1.75e-8 0.18 0.35 T /\
  GammaeHep verner96 T = voronov 54.4 1 2.05e-9 0.265 0.25 T.
Proof. exact C119_verner_aux. Qed.
Print Assumptions C119_verner.

(** C119.  The table "B06": Badnell 2006 for radiative recombination. *)
Theorem C119_badnell : forall T, 0 < T ->
  alphaHp badnell T = verner_ferland 8.318e-11 0.7472 2.965 700100 T /\
  alphaHep badnell T = verner_ferland 1.818e-10 0.7492 10.17 2786000 T /\
  alphaHepp badnell T
    = verner_ferland 5.235e-11 (0.6988 + 0.0829 * exp (- (168200 / T))) 7.301 4475000 T /\
  alphad badnell T = alphad verner96 T /\
  GammaeH0 badnell T = GammaeH0 verner96 T /\
  GammaeHe0 badnell T = GammaeHe0 verner96 T /\
  GammaeHep badnell T = GammaeHep verner96 T.
Proof. exact C119_badnell_aux. Qed.
Print Assumptions C119_badnell.

(** C119.  All rates depend continuously on temperature, but for one of "V96" at
    two temperatures. *)
Theorem C119_continuous : forall r T, r = cen92 \/ r = verner96 \/ r = badnell -> 0 < T ->
  continuous_at (alphaHp r) T /\ continuous_at (alphad r) T /\ continuous_at (alphaHepp r) T /\
  continuous_at (GammaeH0 r) T /\ continuous_at (GammaeHe0 r) T /\ continuous_at (GammaeHep r) T /\
  (r = verner96 -> T <> 600000 /\ T <> 800000 -> continuous_at (alphaHep r) T) /\
  (r <> verner96 -> continuous_at (alphaHep r) T).
Proof. exact C119_continuous_aux. Qed.
Print Assumptions C119_continuous.

(** C119.  At the ends of the blend the rate of "V96" is zero although it stays
    above a positive number on both sides. *)
Theorem C119_blend_refuted : forall T, T = 600000 \/ T = 800000 ->
  alphaHep verner96 T = 0 /\ (exists m, 0 < m /\ isolated_dip (alphaHep verner96) T m) /\
  ~ continuous_at (alphaHep verner96) T.
Proof. exact C119_gap_aux. Qed.
Print Assumptions C119_blend_refuted.

(** C120.  The cooling coefficients of "KWH" and "Sherwood": excitation, ionisation
    potential times rate of ionisation, three quarters of kT per recombination,
    bremsstrahlung, and Compton scattering of the microwave background.  They differ
    in the rates and in the temperature of Cen's correction. *)
Theorem C120_kwh : forall c r Tc,
  (c = kwh /\ r = cen92 /\ Tc = 100000) \/ (c = sherwood /\ r = verner96 /\ Tc = 50000000) ->
  forall T Z z, 0 < T ->
  collisional_H0 c T = excitation 7.5e-19 0 118348 Tc T + 13.5984 * eV * GammaeH0 r T /\
  collisional_He0 c T = excitation 9.1e-27 (-0.1687) 473638 Tc T + 24.5874 * eV * GammaeHe0 r T /\
  collisional_HeP c T = excitation 5.54e-17 (-0.397) 473638 Tc T + 54.41776 * eV * GammaeHep r T /\
  recomb_Hp c T = 3/4 * (k_B * T) * alphaHp r T /\
  recomb_HeP c T = 3/4 * (k_B * T) * alphaHep r T + 6.526e-11 * alphad r T /\
  recomb_HePP c T = 3/4 * (k_B * T) * alphaHepp r T /\
  free_free c T Z = bremsstrahlung Z (1.1 + 0.34 * exp (- ((ln T / ln 10 - 5.5) ^ 2 / 3))) T /\
  inverse_compton c T z
    = 4 * 6.6524e-25 * (7.5657e-15 * (2.7255 * (1 + z)) ^ 4) * (k_B * (T - 2.7255 * (1 + z)))
      / (9.10938e-28 * 2.99792e10).
Proof. exact C120_kwh_aux. Qed.
Print Assumptions C120_kwh.

(** C120.  Those of "Nyx". *)
Theorem C120_nyx : forall T Z, 0 < T -> 0 < Z ->
  (T < 100000 -> collisional_H0 nyx T
     = scholz_walters 213.7913 113.9492 25.06062 2.762755 0.1515352 0.003290382 T) /\
  (100000 <= T -> collisional_H0 nyx T
     = scholz_walters 271.25446 98.019455 14.00728 0.9780842 0.03356289 0.0004553323 T) /\
  collisional_He0 nyx T = excitation 9.1e-27 (-0.1687) 473638 50000000 T + 24.5874 * eV * GammaeHe0 cen92 T /\
  collisional_HeP nyx T = excitation 5.54e-17 (-0.397) 473638 50000000 T + 54.41776 * eV * GammaeHep cen92 T /\
  recomb_Hp nyx T = 2.851e-27 * sqrt T * (5.914 - ln T / 2 + 0.01184 * Rpower T (1/3)) /\
  recomb_HeP nyx T = recomb_HeP kwh T /\
  recomb_HePP nyx T = 1.14e-26 * sqrt T * (6.607 - ln T / 2 + 0.007459 * Rpower T (1/3)) /\
  (T <= 320000 * Z ^ 2 ->
     free_free nyx T Z = bremsstrahlung Z (0.79464 + 0.1243 * (ln (T / Z ^ 2) / ln 10)) T) /\
  (320000 * Z ^ 2 < T ->
     free_free nyx T Z = bremsstrahlung Z (2.13164 - 0.124 * (ln (T / Z ^ 2) / ln 10)) T) /\
  (forall z, inverse_compton nyx T z = inverse_compton kwh T z).
Proof. exact C120_nyx_aux. Qed.
Print Assumptions C120_nyx.

(** C120.  All coefficients depend continuously on temperature, but for three. *)
Theorem C120_continuous : forall c T Z z, c = kwh \/ c = sherwood \/ c = nyx -> 0 < T -> 0 < Z ->
  (c <> nyx \/ T <> 100000 -> continuous_at (collisional_H0 c) T) /\
  continuous_at (collisional_He0 c) T /\ continuous_at (collisional_HeP c) T /\
  continuous_at (recomb_Hp c) T /\
  (c <> sherwood \/ (T <> 600000 /\ T <> 800000) -> continuous_at (recomb_HeP c) T) /\
  continuous_at (recomb_HePP c) T /\
  (c <> nyx \/ T <> 320000 * Z ^ 2 -> continuous_at (fun T => free_free c T Z) T) /\
  continuous_at (fun T => inverse_compton c T z) T.
Proof. exact C120_continuous_aux. Qed.
Print Assumptions C120_continuous.

(** C120.  The bremsstrahlung of "Nyx" falls by more than a percent. *)
Theorem C120_gaunt_refuted : forall Z, 0 < Z ->
  drops_after (fun T => free_free nyx T Z) (320000 * Z ^ 2) (free_free nyx (320000 * Z ^ 2) Z / 100).
Proof. exact C120_gaunt_aux. Qed.
Print Assumptions C120_gaunt_refuted.

(** C120.  Its collisional cooling falls at 1e5 K by more than one part in two thousand. *)
Theorem C120_branches_refuted :
  drops_at (collisional_H0 nyx) 100000 (collisional_H0 nyx 100000 / 2000).
Proof. exact C120_scholz_aux. Qed.
Print Assumptions C120_branches_refuted.

(** C120.  The recombination cooling of singly ionised helium of "Sherwood" (the default)
    has holes at 6e5 and 8e5 K. *)
Theorem C120_holes_refuted : forall T, T = 600000 \/ T = 800000 ->
  exists m, 0 < m /\ isolated_dip (recomb_HeP sherwood) T m.
Proof. exact C120_dip_aux. Qed.
Print Assumptions C120_holes_refuted.

(** At 1e4 K, and at the temperature where the fit of hydrogen has its scale. *)
Example C119_example :
  alphaHp verner96 3.148 * (Rpower 2 0.252 * Rpower (1 + sqrt (3.148 / 703600)) 1.748) = 7.982e-11 /\
  continuous_at (alphaHep verner96) 10000 /\ continuous_at (recomb_HeP sherwood) 10000.
Proof.
  split; [|split].
  - rewrite (proj1 (C119_verner 3.148 ltac:(lra))). unfold verner_ferland.
    replace (3.148 / 3.148) with 1 by (unfold Rdiv; symmetry; apply Rinv_r; lra). rewrite !half_power by lra. rewrite sqrt_1.
    replace (1 + 1) with 2 by ring. replace (1 - 0.748) with 0.252 by lra.
    replace (1 + 0.748) with 1.748 by lra. rewrite Rmult_1_l.
    set (k := Rpower 2 0.252 * _). assert (K : 0 < k)
      by (unfold k; apply Rmult_lt_0_compat; unfold Rpower; apply exp_pos).
    clearbody k. rewrite Rmult_assoc, Rinv_l by lra. lra.
  - destruct (C119_continuous verner96 10000) as (_ & _ & _ & _ & _ & _ & H & _); [auto | lra|].
    apply H; auto. split; apply Rlt_not_eq; lra.
  - destruct (C120_continuous sherwood 10000 1 0) as (_ & _ & _ & _ & H & _); [auto | lra | lra|].
    apply H. right. split; apply Rlt_not_eq; lra.
Qed.
