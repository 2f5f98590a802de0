(** Model of the cooling and heating rates of the rate network: RateNetwork.get_cooling_rate and get_temp,
    fake_spectra/rate_network.py:83-130, and the cooling tables, 488-665.

    Real arithmetic is exact and temperatures are positive, as in RatesModel; one gas element is treated here. *)
From Coq Require Import Reals List Bool.
From Verif Require Import RatesModel.
Import ListNotations.
Local Open Scope R_scope.

(** rate_network.py:502-512, 611-612, 630-631: what the three tables differ in; [nyx] is the class with the overridden methods. *)
Record cooling := Cooling { c_recomb : rates; c_tcmb : R; c_t5_corr : R; c_nyx : bool }.

(** rate_network.py:502-512: KWH92. *)
Definition kwh : cooling := Cooling cen92 2.7255 1e5 false.
(** rate_network.py:611-612: always with the Verner rates. *)
Definition sherwood : cooling := Cooling verner96 2.7255 5e7 false.
(** rate_network.py:630-631: recomb is None. *)
Definition nyx : cooling := Cooling cen92 2.7255 5e7 true.

(** rate_network.py:509-512 *)
Definition eV_in_ergs : R := 1.60218e-12.
(** rate_network.py:509-512, with the definition above. *)
Definition kB : R := 1.38064852e-16.

(** rate_network.py:514-522 *)
Definition t5 (c : cooling) (t : R) : R := 1 + Rpower (t / c_t5_corr c) 0.5.

(** rate_network.py:524-535 *)
Definition excite_H0 (c : cooling) (t : R) : R := 7.5e-19 * exp (-118348.0 / t) / t5 c t.
(** rate_network.py:524-535, with the definition above. *)
Definition excite_HeP (c : cooling) (t : R) : R := 5.54e-17 * Rpower t (-0.397) * exp (-473638 / t) / t5 c t.
(** rate_network.py:524-535, with the definition above. *)
Definition excite_He0 (c : cooling) (t : R) : R := 9.1e-27 * Rpower t (-0.1687) * exp (-473638 / t) / t5 c t.

(** rate_network.py:537-548 *)
Definition ionize_H0 (c : cooling) (t : R) : R := 13.5984 * eV_in_ergs * GammaeH0 (c_recomb c) t.
(** rate_network.py:537-548, with the definition above. *)
Definition ionize_He0 (c : cooling) (t : R) : R := 24.5874 * eV_in_ergs * GammaeHe0 (c_recomb c) t.
(** rate_network.py:537-548, with the definition above. *)
Definition ionize_HeP (c : cooling) (t : R) : R := 54.417760 * eV_in_ergs * GammaeHep (c_recomb c) t.

(** rate_network.py:633-647: Nyx, collisional cooling by neutral hydrogen.  The loop over the coefficients adds c_j (-y)^j. *)
Definition nyx_H0 (t : R) : R :=
  let y := ln t in
  let coeffs := if ltb t 1e5 then [213.7913; 113.9492; 25.06062; 2.762755; 0.1515352; 3.290382e-3]
                else [271.25446; 98.019455; 14.00728; 0.9780842; 3.356289e-2; 4.553323e-4] in
  let start := - 0.75 / kB * 2.1798741e-11 / t in
  1e-20 * exp (fst (fold_left (fun a cj => (fst a + cj * (- y) ^ snd a, S (snd a))) coeffs (start, 0%nat))).

(** rate_network.py:550-560 *)
Definition collisional_H0 (c : cooling) (t : R) : R := if c_nyx c then nyx_H0 t else excite_H0 c t + ionize_H0 c t.
(** rate_network.py:550-560, with the definition above. *)
Definition collisional_He0 (c : cooling) (t : R) : R := excite_He0 c t + ionize_He0 c t.
(** rate_network.py:550-560, with the definition above. *)
Definition collisional_HeP (c : cooling) (t : R) : R := excite_HeP c t + ionize_HeP c t.

(** rate_network.py:562-579; Nyx: 649-657 *)
Definition recomb_Hp (c : cooling) (t : R) : R :=
  if c_nyx c then 2.851e-27 * sqrt t * (5.914 - 0.5 * ln t + 0.01184 * Rpower t (1 / 3))
  else 0.75 * kB * t * alphaHp (c_recomb c) t.
(** rate_network.py:562-579, with the definition above. *)
Definition recomb_dielect (c : cooling) (t : R) : R := 6.526e-11 * alphad (c_recomb c) t.
(** rate_network.py:562-579, with the definition above. *)
Definition recomb_HeP (c : cooling) (t : R) : R := 0.75 * kB * t * alphaHep (c_recomb c) t + recomb_dielect c t.
(** rate_network.py:562-579, with the definition above. *)
Definition recomb_HePP (c : cooling) (t : R) : R :=
  if c_nyx c then 1.140e-26 * sqrt t * (6.607 - 0.5 * ln t + 7.459e-3 * Rpower t (1 / 3))
  else 0.75 * kB * t * alphaHepp (c_recomb c) t.

(** np.log10 *)
Definition log10 (x : R) : R := ln x / ln 10.

(** rate_network.py:587-590; Nyx: 659-665 *)
Definition gff (c : cooling) (t zz : R) : R :=
  if c_nyx c then
    let lt := log10 (t / zz ^ 2) in
    if Rle_dec (t / zz ^ 2) 3.2e5 then 0.79464 + 0.1243 * lt else 2.13164 - 0.1240 * lt
  else 1.1 + 0.34 * exp (- (5.5 - log10 t) ^ 2 / 3).

(** rate_network.py:581-585 *)
Definition free_free (c : cooling) (t zz : R) : R := 1.426e-27 * sqrt t * zz ^ 2 * gff c t zz.

(** rate_network.py:592-604 *)
Definition inverse_compton (c : cooling) (t redshift : R) : R :=
  let tcmb_red := c_tcmb c * (1 + redshift) in
  4 * 6.6524e-25 * 7.5657e-15 / (9.10938e-28 * 2.99792e10) * tcmb_red ^ 4 * kB * (t - tcmb_red).

(** The helium reionisation heating of rate_network.py:241-254: hub, he_thresh, he_amp, he_exp. *)
Record helium_heating := HeliumHeating { hub : R; he_thresh : R; he_amp : R; he_exp : R }.

(** rate_network.py:47-81: the network, its cooling table and redshift, the interpolated logarithms of the photoheating rates (473-486), and
    the helium model if he_model_on. *)
Record thermal := Thermal {
  net : network; cool : cooling; redshift : R; lg_eH0 : R; lg_eHe0 : R; lg_eHep : R; he_model : option helium_heating }.

(** rate_network.py:483-486 epsH0: ten to the interpolated logarithm. *)
Definition epsH0 (n : thermal) : R := Rpower 10 (lg_eH0 n).
(** rate_network.py:473-476 epsHe0 *)
Definition epsHe0 (n : thermal) : R := Rpower 10 (lg_eHe0 n).
(** rate_network.py:478-481 epsHep *)
Definition epsHep (n : thermal) : R := Rpower 10 (lg_eHep n).

(** rate_network.py:71 *)
Definition protonmass : R := 1.67262178e-24.

(** rate_network.py:241-254 *)
Definition he_reion_factor (h : helium_heating) (z density : R) : R :=
  let rhoc := 3 * (hub h * 3.2407789e-18) ^ 2 / (8 * PI * 6.672e-8) in
  let atime := 1 / (1 + z) in
  let overden := protonmass * density / (0.0483 * rhoc * Rpower atime (-3)) in
  let overden := if Rle_dec (he_thresh h) overden then he_thresh h else overden in
  he_amp h * Rpower overden (he_exp h).

(** rate_network.py:98-130 for one element with [ne] electrons per volume; [None]: the assertion of _get_temp, or NaN from
    helium without any ionisation. *)
Definition cooling1 (n : thermal) (density ienergy helium ne : R) (photoheating : bool) : option R :=
  let nh := density * (1 - helium) in
  let x := ne / nh in
  match get_temp x ienergy helium with
  | None => None
  | Some t =>
      let r := net n in let c := cool n in
      match nHe0 r nh t x with
      | None => None
      | Some he0 =>
          let h0 := nH0 r nh t x in
          let hp := nHp r nh t x in
          let he0 := he0 * yy helium in
          let hep := nHep r nh t x * yy helium in
          let hepp := nHepp r nh t x * yy helium in
          let collis := x * (collisional_H0 c t * h0 + collisional_He0 c t * he0 + collisional_HeP c t * hep) in
          let recomb := x * (recomb_Hp c t * hp + recomb_HeP c t * hep + recomb_HePP c t * hepp) in
          let ff := x * (free_free c t 1 * (hp + hep) + free_free c t 2 * hepp) in
          let cmptn := x ^ 2 * inverse_compton c t (redshift n) in
          let lambda := collis + recomb + ff + cmptn in
          let heating :=
            if photoheating then
              let h := (h0 * epsH0 n / nh + he0 * epsHe0 n / nh + hep * epsHep n / nh) * photo_factor r in
              match he_model n with Some m => h * he_reion_factor m (redshift n) density | None => h end
            else 0 in
          Some ((lambda - heating) * (1 - helium) ^ 2 * density / protonmass)
      end
  end.

(** rate_network.py:92-130 *)
Definition get_cooling_rate (n : thermal) (maxiter : nat) (density ienergy helium : R) (photoheating : bool) : outcome R :=
  match get_equilib_ne (net n) maxiter [density] [ienergy] helium with
  | Value [ne] => match cooling1 n density ienergy helium ne photoheating with Some v => Value v | None => Raised end
  | Value _ => Raised
  | Raised => Raised
  | NotConverged => NotConverged
  | BadResidual => BadResidual
  end.
