(** Tables of cooling coefficients: published formulas, continuity. *)
From Coq Require Import Reals List Bool Arith Lia Lra Psatz.
From Verif Require Import RatesModel RatesProofs CoolModel CoolProofs RatetabSpec RatetabProofs.
Import ListNotations.
Local Open Scope R_scope.

(** ** Published formulas *)

Lemma t5_eq : forall c T, 0 < T -> 0 < c_t5_corr c -> t5 c T = 1 + sqrt (T / c_t5_corr c).
Proof.
  intros c T P Q. unfold t5. f_equal. replace 0.5 with (/2) by lra. apply Rpower_sqrt, Rdiv_pos; auto.
Qed.

Lemma C120_kwh_aux : forall c r Tc,
  (c = kwh /\ r = cen92 /\ Tc = 100000) \/ (c = sherwood /\ r = verner96 /\ Tc = 50000000) ->
  forall T Z z, 0 < T ->
  collisional_H0 c T = excitation 7.5e-19 0 118348 Tc T + 13.5984 * eV * GammaeH0 r T /\
  collisional_He0 c T = excitation 9.1e-27 (-0.1687) 473638 Tc T + 24.5874 * eV * GammaeHe0 r T /\
  collisional_HeP c T = excitation 5.54e-17 (-0.397) 473638 Tc T + 54.41776 * eV * GammaeHep r T /\
  recomb_Hp c T = 3/4 * (k_B * T) * alphaHp r T /\
  recomb_HeP c T = 3/4 * (k_B * T) * alphaHep r T + 6.526e-11 * alphad r T /\
  recomb_HePP c T = 3/4 * (k_B * T) * alphaHepp r T /\
  free_free c T Z = bremsstrahlung Z (1.1 + 0.34 * exp (- ((ln T / ln 10 - 5.5) ^ 2 / 3))) T /\
  inverse_compton c T z
    = 4 * 6.6524e-25 * (7.5657e-15 * (2.7255 * (1 + z)) ^ 4) * (k_B * (T - 2.7255 * (1 + z)))
      / (9.10938e-28 * 2.99792e10).
Proof.
  intros c r Tc H T Z z P.
  assert (E : c_recomb c = r /\ c_t5_corr c = Tc /\ 0 < Tc /\ c_nyx c = false /\ c_tcmb c = 2.7255).
  { destruct H as [(-> & -> & ->) | (-> & -> & ->)]; cbn [c_recomb c_t5_corr c_nyx c_tcmb kwh sherwood];
      repeat split; lra. }
  clear H. destruct E as (ER & ET & PT & EN & EC).
  assert (T5 : t5 c T = 1 + sqrt (T / Tc)) by (rewrite t5_eq, ET; auto; lra).
  unfold collisional_H0, collisional_He0, collisional_HeP, recomb_Hp, recomb_HeP, recomb_HePP, free_free, gff,
    recomb_dielect, inverse_compton, ionize_H0, ionize_He0, ionize_HeP, excite_H0, excite_He0, excite_HeP, log10.
  rewrite T5, EN, ER, EC. cbv zeta.
  unfold excitation, eV, k_B, eV_in_ergs, kB, bremsstrahlung.
  rewrite (Rpower_O T P).
  assert (X1 : -118348.0 / T = - (118348 / T)) by (unfold Rdiv; lra).
  assert (X2 : -473638 / T = - (473638 / T)) by (unfold Rdiv; lra).
  rewrite X1, X2. replace 54.417760 with 54.41776 by lra.
  replace 0.75 with (3/4) by lra. rewrite Rmult_1_r.
  split; [reflexivity|]. split; [reflexivity|]. split; [reflexivity|].
  set (kk := 1.38064852e-16). clearbody kk.
  split; [rewrite !Rmult_assoc; reflexivity|]. split; [rewrite !Rmult_assoc; reflexivity|].
  split; [rewrite !Rmult_assoc; reflexivity|]. split.
  - set (l := ln T / ln 10). clearbody l.
    assert (S : - (5.5 - l) ^ 2 / 3 = - ((l - 5.5) ^ 2 / 3)).
    { set (m := 5.5). clearbody m. field. }
    rewrite S. set (g := 1.1 + _). clearbody g. set (a := 1.426e-27). clearbody a. ring.
  - set (tc := 2.7255 * (1 + z)). clearbody tc.
    set (a := 6.6524e-25). set (b := 7.5657e-15). set (d := 9.10938e-28). set (e := 2.99792e10).
    clearbody a b. unfold Rdiv. set (f := / (d * e)). clearbody f. ring.
Qed.

Lemma fold6 : forall s y a0 a1 a2 a3 a4 a5,
  fst (fold_left (fun a cj => (fst a + cj * (- y) ^ snd a, S (snd a))) [a0; a1; a2; a3; a4; a5] (s, 0%nat))
  = a0 - a1 * y + a2 * y ^ 2 - a3 * y ^ 3 + a4 * y ^ 4 - a5 * y ^ 5 + s.
Proof. intros. cbn [fold_left fst snd]. ring. Qed.

Definition low_H0 : R -> R := scholz_walters 213.7913 113.9492 25.06062 2.762755 0.1515352 0.003290382.
Definition high_H0 : R -> R := scholz_walters 271.25446 98.019455 14.00728 0.9780842 0.03356289 0.0004553323.

Lemma nyx_H0_eq : forall T, 0 < T ->
  nyx_H0 T = if Rlt_dec T 100000 then low_H0 T else high_H0 T.
Proof.
  intros T P. unfold nyx_H0. cbv zeta.
  assert (S : - 0.75 / kB * 2.1798741e-11 / T = - (3/4 * 2.1798741e-11 / (k_B * T))).
  { unfold kB, k_B. replace (- 0.75) with (- (3/4)) by lra. set (k := 1.38064852e-16).
    assert (K : 0 < k) by (unfold k; lra). clearbody k. set (q := 2.1798741e-11). clearbody q.
    field. lra. }
  rewrite S. unfold ltb. replace 1e5 with 100000 by lra.
  destruct (Rlt_dec T 100000); rewrite fold6; unfold low_H0, high_H0, scholz_walters; cbv zeta.
  - replace 3.290382e-3 with 0.003290382 by lra. reflexivity.
  - replace 3.356289e-2 with 0.03356289 by lra. replace 4.553323e-4 with 0.0004553323 by lra. reflexivity.
Qed.

Lemma C120_nyx_aux : forall T Z, 0 < T -> 0 < Z ->
  (T < 100000 -> collisional_H0 nyx T
     = scholz_walters 213.7913 113.9492 25.06062 2.762755 0.1515352 0.003290382 T) /\
  (100000 <= T -> collisional_H0 nyx T
     = scholz_walters 271.25446 98.019455 14.00728 0.9780842 0.03356289 0.0004553323 T) /\
  collisional_He0 nyx T = excitation 9.1e-27 (-0.1687) 473638 50000000 T + 24.5874 * eV * GammaeHe0 cen92 T /\
  collisional_HeP nyx T = excitation 5.54e-17 (-0.397) 473638 50000000 T + 54.41776 * eV * GammaeHep cen92 T /\
  recomb_Hp nyx T = 2.851e-27 * sqrt T * (5.914 - ln T / 2 + 0.01184 * Rpower T (1/3)) /\
  recomb_HeP nyx T = recomb_HeP kwh T /\
  recomb_HePP nyx T = 1.14e-26 * sqrt T * (6.607 - ln T / 2 + 0.007459 * Rpower T (1/3)) /\
  (T <= 320000 * Z ^ 2 ->
     free_free nyx T Z = bremsstrahlung Z (0.79464 + 0.1243 * (ln (T / Z ^ 2) / ln 10)) T) /\
  (320000 * Z ^ 2 < T ->
     free_free nyx T Z = bremsstrahlung Z (2.13164 - 0.124 * (ln (T / Z ^ 2) / ln 10)) T) /\
  (forall z, inverse_compton nyx T z = inverse_compton kwh T z).
Proof.
  intros T Z P PZ. unfold collisional_H0. cbn [c_nyx nyx]. rewrite nyx_H0_eq by auto.
  split. { intros H. destruct (Rlt_dec T 100000); [reflexivity | lra]. }
  split. { intros H. destruct (Rlt_dec T 100000); [lra | reflexivity]. }
  assert (T5 : t5 nyx T = 1 + sqrt (T / 50000000)).
  { rewrite t5_eq by (auto; cbn [c_t5_corr nyx]; lra). cbn [c_t5_corr nyx].
    replace 5e7 with 50000000 by lra. reflexivity. }
  split.
  { unfold collisional_He0, excite_He0, ionize_He0, excitation, eV, eV_in_ergs. rewrite T5. cbn [c_recomb nyx].
    replace (-473638 / T) with (- (473638 / T)) by (unfold Rdiv; lra). reflexivity. }
  split.
  { unfold collisional_HeP, excite_HeP, ionize_HeP, excitation, eV, eV_in_ergs. rewrite T5. cbn [c_recomb nyx].
    replace 54.417760 with 54.41776 by lra.
    replace (-473638 / T) with (- (473638 / T)) by (unfold Rdiv; lra). reflexivity. }
  split.
  { unfold recomb_Hp. cbn [c_nyx nyx]. replace (0.5 * ln T) with (ln T / 2) by lra. reflexivity. }
  split; [reflexivity|]. split.
  { unfold recomb_HePP. cbn [c_nyx nyx]. replace (0.5 * ln T) with (ln T / 2) by lra.
    replace 1.140e-26 with 1.14e-26 by lra. replace 7.459e-3 with 0.007459 by lra. reflexivity. }
  assert (Z2 : 0 < Z ^ 2) by (apply pow_lt; auto).
  assert (Q : T / Z ^ 2 <= 3.2e5 <-> T <= 320000 * Z ^ 2).
  { assert (TZ : T = T / Z ^ 2 * Z ^ 2) by (field; lra). set (w := T / Z ^ 2) in *. split; intros H.
    - rewrite TZ. apply Rmult_le_compat_r; lra.
    - apply Rmult_le_reg_r with (Z ^ 2); auto. lra. }
  assert (AS : forall a s q g, a * s * q * g = a * q * g * s) by (intros; ring).
  split; [|split].
  - intros H. unfold free_free, gff, bremsstrahlung, log10. cbn [c_nyx nyx]. cbv zeta.
    destruct (Rle_dec (T / Z ^ 2) 3.2e5) as [_ | N]; [|tauto]. apply AS.
  - intros H. unfold free_free, gff, bremsstrahlung, log10. cbn [c_nyx nyx]. cbv zeta.
    destruct (Rle_dec (T / Z ^ 2) 3.2e5) as [N | _]; [apply Q in N; lra|].
    replace 0.1240 with 0.124 by lra. apply AS.
  - intros z. reflexivity.
Qed.

(** ** Continuity *)

Lemma C_t5 : forall c T, tables c -> 0 < T -> C (t5 c) T /\ 0 < t5 c T.
Proof.
  intros c T H P. assert (Q : 0 < c_t5_corr c) by (destruct H as [-> | [-> | ->]]; cbn; lra).
  unfold t5. split; [cont; nz; auto | nz].
Qed.

Lemma C_sw : forall a0 a1 a2 a3 a4 a5 T, 0 < T -> C (scholz_walters a0 a1 a2 a3 a4 a5) T.
Proof.
  intros. unfold scholz_walters. cbv zeta. unfold k_B. cont; nz.
Qed.

Lemma C_collisional : forall c T, tables c -> 0 < T ->
  C (collisional_He0 c) T /\ C (collisional_HeP c) T /\
  (c <> nyx \/ T <> 100000 -> C (collisional_H0 c) T).
Proof.
  intros c T H P. destruct (C_t5 c T H P) as [C5 P5].
  assert (S : c_recomb c = cen92 \/ c_recomb c = verner96 \/ c_recomb c = badnell)
    by (destruct H as [-> | [-> | ->]]; cbn [c_recomb kwh sherwood nyx]; auto).
  destruct (C_tables (c_recomb c) T S P) as (_ & _ & _ & G0 & G1 & G2).
  split; [|split].
  - unfold collisional_He0, excite_He0, ionize_He0. cont; nz; try exact C5; try exact G1.
  - unfold collisional_HeP, excite_HeP, ionize_HeP. cont; nz; try exact C5; try exact G2.
  - intros N. destruct (c_nyx c) eqn:EN.
    + assert (c = nyx) by (destruct H as [-> | [-> | ->]]; auto; discriminate). subst c.
      assert (TN : T <> 100000) by (destruct N; auto; congruence).
      unfold collisional_H0. cbn [c_nyx nyx].
      destruct (Rlt_dec T 100000) as [L | L].
      * apply (C_ext low_H0 _ T (Rmin T (100000 - T))); [apply Rmin_pos; lra | | now apply C_sw].
        intros y Y. pose proof (Rmin_l T (100000 - T)). pose proof (Rmin_r T (100000 - T)).
        apply Rabs_def2 in Y. rewrite nyx_H0_eq by lra. destruct (Rlt_dec y 100000); [reflexivity | lra].
      * apply (C_ext high_H0 _ T (T - 100000)); [lra | | now apply C_sw].
        intros y Y. apply Rabs_def2 in Y. rewrite nyx_H0_eq by lra. destruct (Rlt_dec y 100000); [lra | reflexivity].
    + unfold collisional_H0. rewrite EN. unfold excite_H0, ionize_H0. cont; nz; try exact C5; try exact G0.
Qed.

Lemma C_recomb : forall c T, tables c -> 0 < T ->
  C (recomb_Hp c) T /\ C (recomb_HePP c) T /\
  (c <> sherwood \/ (T <> 600000 /\ T <> 800000) -> C (recomb_HeP c) T).
Proof.
  intros c T H P.
  assert (S : c_recomb c = cen92 \/ c_recomb c = verner96 \/ c_recomb c = badnell)
    by (destruct H as [-> | [-> | ->]]; cbn [c_recomb kwh sherwood nyx]; auto).
  destruct (C_tables (c_recomb c) T S P) as (A & B & D & _).
  split; [|split].
  - unfold recomb_Hp. destruct (c_nyx c); cont; nz; try exact A.
  - unfold recomb_HePP. destruct (c_nyx c); cont; nz; try exact D.
  - intros N. assert (HE : C (alphaHep (c_recomb c)) T).
    { apply C_Hep; auto. intros E. destruct H as [-> | [-> | ->]]; cbn [c_recomb kwh sherwood nyx] in *.
      - exfalso. pose proof (f_equal (fun r => alphaHep r 600000) E) as F.
        cbn [alphaHep cen92 verner96] in F.
        rewrite (proj2 (proj2 (proj2 (verner_Hep_cases 600000))) (or_introl eq_refl)) in F.
        unfold cen_alphaHep in F. pose proof (Rdiv_pos 1.5e-10 (Rpower 600000 0.6353) ltac:(lra) (Rpower_pos _ _)). lra.
      - destruct N as [N | N]; [congruence | auto].
      - exfalso. pose proof (f_equal (fun r => alphaHep r 600000) E) as F.
        cbn [alphaHep cen92 verner96] in F.
        rewrite (proj2 (proj2 (proj2 (verner_Hep_cases 600000))) (or_introl eq_refl)) in F.
        unfold cen_alphaHep in F. pose proof (Rdiv_pos 1.5e-10 (Rpower 600000 0.6353) ltac:(lra) (Rpower_pos _ _)). lra. }
    unfold recomb_HeP, recomb_dielect. cont; try exact HE; try exact B.
Qed.

Lemma ln10_pos : 0 < ln 10.
Proof. rewrite <- ln_1. apply ln_increasing; lra. Qed.

Definition ff_low (Z T : R) : R := bremsstrahlung Z (0.79464 + 0.1243 * (ln (T / Z ^ 2) / ln 10)) T.
Definition ff_high (Z T : R) : R := bremsstrahlung Z (2.13164 - 0.124 * (ln (T / Z ^ 2) / ln 10)) T.

Lemma C_ff_sides : forall Z T, 0 < Z -> 0 < T -> C (ff_low Z) T /\ C (ff_high Z) T.
Proof.
  intros Z T PZ P. assert (0 < Z ^ 2) by (apply pow_lt; auto). pose proof ln10_pos.
  unfold ff_low, ff_high, bremsstrahlung. split; cont; nz.
Qed.

Lemma C_free_free : forall c T Z, tables c -> 0 < T -> 0 < Z ->
  c <> nyx \/ T <> 320000 * Z ^ 2 -> C (fun T => free_free c T Z) T.
Proof.
  intros c T Z H P PZ N. assert (Z2 : 0 < Z ^ 2) by (apply pow_lt; auto). pose proof ln10_pos as L10.
  destruct (c_nyx c) eqn:EN.
  - assert (c = nyx) by (destruct H as [-> | [-> | ->]]; auto; discriminate). subst c.
    assert (TN : T <> 320000 * Z ^ 2) by (destruct N; auto; congruence).
    destruct (C_ff_sides Z T PZ P) as [CL CH].
    destruct (Rlt_dec T (320000 * Z ^ 2)) as [L | L].
    + apply (C_ext (ff_low Z) _ T (Rmin T (320000 * Z ^ 2 - T))); [apply Rmin_pos; lra | | exact CL].
      intros y Y. pose proof (Rmin_l T (320000 * Z ^ 2 - T)). pose proof (Rmin_r T (320000 * Z ^ 2 - T)).
      apply Rabs_def2 in Y.
      symmetry. apply (C120_nyx_aux y Z); auto; lra.
    + apply (C_ext (ff_high Z) _ T (T - 320000 * Z ^ 2)); [lra | | exact CH].
      intros y Y. apply Rabs_def2 in Y.
      symmetry. apply (C120_nyx_aux y Z); auto; lra.
  - unfold free_free, gff, log10. rewrite EN. cont; nz.
Qed.

Lemma C120_continuous_aux : forall c T Z z, c = kwh \/ c = sherwood \/ c = nyx -> 0 < T -> 0 < Z ->
  (c <> nyx \/ T <> 100000 -> continuous_at (collisional_H0 c) T) /\
  continuous_at (collisional_He0 c) T /\ continuous_at (collisional_HeP c) T /\
  continuous_at (recomb_Hp c) T /\
  (c <> sherwood \/ (T <> 600000 /\ T <> 800000) -> continuous_at (recomb_HeP c) T) /\
  continuous_at (recomb_HePP c) T /\
  (c <> nyx \/ T <> 320000 * Z ^ 2 -> continuous_at (fun T => free_free c T Z) T) /\
  continuous_at (fun T => inverse_compton c T z) T.
Proof.
  intros c T Z z H P PZ. destruct (C_collisional c T H P) as (A & B & D).
  destruct (C_recomb c T H P) as (E & F & G).
  split; [intros N; apply C_spec; auto|]. split; [apply C_spec; auto|]. split; [apply C_spec; auto|].
  split; [apply C_spec; auto|]. split; [intros N; apply C_spec; auto|]. split; [apply C_spec; auto|].
  split.
  - intros N. apply C_spec, C_free_free; auto.
  - apply C_spec. unfold inverse_compton. cbv zeta. cont.
Qed.

(** ** Jumps *)

Lemma near_below : forall f x v, C f x -> f x < v ->
  exists del, 0 < del /\ forall y, Rabs (y - x) < del -> f y < v.
Proof.
  intros f x v H L. destruct (C_spec f x H (v - f x) ltac:(lra)) as (del & D & N).
  exists del. split; auto. intros y Y. specialize (N y Y). apply Rabs_def2 in N. lra.
Qed.

Lemma near_above : forall f x v, C f x -> v < f x ->
  exists del, 0 < del /\ forall y, Rabs (y - x) < del -> v < f y.
Proof.
  intros f x v H L. destruct (C_spec f x H (f x - v) ltac:(lra)) as (del & D & N).
  exists del. split; auto. intros y Y. specialize (N y Y). apply Rabs_def2 in N. lra.
Qed.

Lemma log_32 : 5.45 < ln 320000 / ln 10.
Proof.
  pose proof ln10_pos as L.
  assert (H : ln (10 ^ 109) < ln (320000 ^ 20)).
  { apply ln_increasing. apply pow_lt; lra.
    replace (320000 ^ 20) with ((32 * 10 ^ 4) ^ 20) by (f_equal; ring).
    rewrite Rpow_mult_distr, <- pow_mult.
    replace (10 ^ 109) with (10 ^ 29 * 10 ^ (4 * 20)) by (rewrite <- pow_add; reflexivity).
    apply Rmult_lt_compat_r. apply pow_lt; lra. lra. }
  rewrite !ln_pow in H by lra.
  replace (INR 109) with 109 in H by (rewrite INR_IZR_INZ; reflexivity).
  replace (INR 20) with 20 in H by (rewrite INR_IZR_INZ; reflexivity).
  apply Rmult_lt_reg_r with (ln 10); auto. unfold Rdiv. rewrite Rmult_assoc, Rinv_l by lra. lra.
Qed.

Lemma C120_gaunt_aux : forall Z, 0 < Z ->
  drops_after (fun T => free_free nyx T Z) (320000 * Z ^ 2) (free_free nyx (320000 * Z ^ 2) Z / 100).
Proof.
  intros Z PZ. assert (Z2 : 0 < Z ^ 2) by (apply pow_lt; auto).
  set (x := 320000 * Z ^ 2). assert (X : 0 < x) by (unfold x; lra).
  destruct (C120_nyx_aux x Z X PZ) as (_ & _ & _ & _ & _ & _ & _ & A & _).
  assert (RX : x / Z ^ 2 = 320000) by (unfold x; field; lra).
  destruct (C_ff_sides Z x PZ X) as [_ CH].
  pose proof log_32 as L. set (l := ln 320000 / ln 10) in *.
  assert (FX : free_free nyx x Z = bremsstrahlung Z (0.79464 + 0.1243 * l) x).
  { rewrite A by (unfold x; lra). rewrite RX. reflexivity. }
  assert (HX : ff_high Z x < free_free nyx x Z - free_free nyx x Z / 100).
  { rewrite FX. unfold ff_high. rewrite RX. fold l. clearbody l. unfold bremsstrahlung.
    assert (S : 0 < 1.426e-27 * Z ^ 2 * sqrt x) by nz.
    set (k := 1.426e-27 * Z ^ 2) in *. set (s := sqrt x) in *. clearbody k s.
    assert (E1 : k * (2.13164 - 0.124 * l) * s = (2.13164 - 0.124 * l) * (k * s)) by (rewrite (Rmult_comm k), Rmult_assoc; reflexivity).
    assert (E2 : k * (0.79464 + 0.1243 * l) * s = (0.79464 + 0.1243 * l) * (k * s)) by (rewrite (Rmult_comm k), Rmult_assoc; reflexivity).
    rewrite E1, E2.
    assert (0 < (0.99 * (0.79464 + 0.1243 * l) - (2.13164 - 0.124 * l)) * (k * s)) by (apply Rmult_lt_0_compat; lra).
    lra. }
  destruct (near_below _ _ _ CH HX) as (del & D & N). exists del. split; auto.
  intros y Y. specialize (N y ltac:(rewrite Rabs_right; lra)).
  destruct (C120_nyx_aux y Z ltac:(lra) PZ) as (_ & _ & _ & _ & _ & _ & _ & _ & B & _).
  rewrite B by (unfold x in Y; lra). fold (ff_high Z y). lra.
Qed.

Lemma exp_2306 : 10 <= exp 2.306.
Proof.
  replace 2.306 with (2 * (2 * (2 * (2 * (2 * (2 * (2 * (2 * (2 * (2 * 0.002251953125)))))))))) by lra.
  apply (exp_double _ 3.16357117); [lra| |lra]. apply (exp_double _ 1.77864307); [lra| |lra].
  apply (exp_double _ 1.33365778); [lra| |lra]. apply (exp_double _ 1.15484102); [lra| |lra].
  apply (exp_double _ 1.0746353); [lra| |lra]. apply (exp_double _ 1.03664618); [lra| |lra].
  apply (exp_double _ 1.01815823); [lra| |lra]. apply (exp_double _ 1.00903827); [lra| |lra].
  apply (exp_double _ 1.00450897); [lra| |lra]. apply (exp_double _ 1.002251953125); [lra| |lra].
  pose proof (exp_ineq1_le 0.002251953125). lra.
Qed.

Lemma exp_22 : 0.1 <= exp (- 2.2).
Proof.
  replace (- 2.2) with (2 * (2 * (2 * (2 * (2 * - 0.06875))))) by lra.
  apply (exp_double _ 0.31993); [lra| |lra]. apply (exp_double _ 0.565624); [lra| |lra].
  apply (exp_double _ 0.75208); [lra| |lra]. apply (exp_double _ 0.867226); [lra| |lra].
  apply (exp_double _ 0.93125); [lra| |lra]. pose proof (exp_ineq1_le (- 0.06875)). lra.
Qed.

Lemma ln_1e5 : 11 <= ln 100000 <= 11.53.
Proof.
  replace 100000 with (10 ^ 5) by ring. rewrite ln_pow by lra.
  replace (INR 5) with 5 by (rewrite INR_IZR_INZ; reflexivity).
  assert (A : ln 10 <= 2.306) by (apply ln_le_exp; [lra | apply exp_2306]).
  assert (B : ln (/ 10) <= - 2.2 \/ - 2.2 < ln (/ 10)) by lra.
  assert (D : 2.2 <= ln 10).
  { destruct (Rle_dec 2.2 (ln 10)) as [L | L]; auto. exfalso.
    apply Rnot_le_lt in L. apply exp_increasing in L. rewrite exp_ln in L by lra.
    pose proof exp_22 as E.
    assert (M : exp (- 2.2) * exp 2.2 = 1)
      by (rewrite <- exp_plus; replace (- 2.2 + 2.2) with 0 by lra; apply exp_0).
    assert (0 < (exp 2.2 - 10) * exp (- 2.2)) by (apply Rmult_lt_0_compat; [lra | apply exp_pos]). lra. }
  lra.
Qed.

Lemma branches_differ : forall y, 11 <= y <= 11.53 ->
  0.0006 <= (213.7913 - 113.9492 * y + 25.06062 * y ^ 2 - 2.762755 * y ^ 3 + 0.1515352 * y ^ 4 - 0.003290382 * y ^ 5)
    - (271.25446 - 98.019455 * y + 14.00728 * y ^ 2 - 0.9780842 * y ^ 3 + 0.03356289 * y ^ 4 - 0.0004553323 * y ^ 5).
Proof.
  intros y Y. set (d := 11.53 - y). assert (D : 0 <= d <= 0.53) by (unfold d; lra).
  replace y with (11.53 - d) by (unfold d; lra). clearbody d. clear Y y.
  assert (P2 : 0 <= d ^ 2) by (apply pow_le; lra). assert (P3 : 0 <= d ^ 3) by (apply pow_le; lra).
  assert (P5 : 0 <= d ^ 5) by (apply pow_le; lra).
  assert (H4 : d ^ 4 <= 0.53 * d ^ 3).
  { replace (d ^ 4) with (d * d ^ 3) by ring. apply Rmult_le_compat_r; lra. }
  assert (H3 : 0 <= d * (d - 0.2) ^ 2) by (apply Rmult_le_pos; [lra | apply pow2_ge_0]).
  ring_simplify in H3. ring_simplify.
  lra.
Qed.

Lemma C120_scholz_aux :
  drops_at (collisional_H0 nyx) 100000 (collisional_H0 nyx 100000 / 2000).
Proof.
  unfold collisional_H0. cbn [c_nyx nyx].
  assert (V : nyx_H0 100000 = high_H0 100000).
  { rewrite nyx_H0_eq by lra. destruct (Rlt_dec 100000 100000); [lra | reflexivity]. }
  assert (HX : nyx_H0 100000 + nyx_H0 100000 / 2000 < low_H0 100000).
  { rewrite V. pose proof (branches_differ (ln 100000) ln_1e5) as B.
    unfold low_H0, high_H0, scholz_walters. cbv zeta.
    set (y := ln 100000) in *. clearbody y.
    set (s := 3 / 4 * 2.1798741e-11 / (k_B * 100000)). clearbody s.
    set (pl := 213.7913 - 113.9492 * y + 25.06062 * y ^ 2 - 2.762755 * y ^ 3 + 0.1515352 * y ^ 4 - 0.003290382 * y ^ 5) in *.
    set (ph := 271.25446 - 98.019455 * y + 14.00728 * y ^ 2 - 0.9780842 * y ^ 3 + 0.03356289 * y ^ 4 - 0.0004553323 * y ^ 5) in *.
    clearbody pl ph.
    replace (pl - s) with ((ph - s) + (pl - ph)) by ring. rewrite exp_plus.
    pose proof (exp_ineq1_le (pl - ph)). pose proof (exp_pos (ph - s)).
    assert (0 <= exp (ph - s) * (exp (pl - ph) - 1.0006)) by (apply Rmult_le_pos; lra). lra. }
  destruct (near_above _ _ _ (C_sw 213.7913 113.9492 25.06062 2.762755 0.1515352 0.003290382 100000 ltac:(lra)) HX)
    as (del & D & N).
  exists (Rmin del 1000). split. apply Rmin_pos; lra.
  intros y Y. pose proof (Rmin_l del 1000). pose proof (Rmin_r del 1000).
  specialize (N y ltac:(rewrite Rabs_left; lra)).
  rewrite (nyx_H0_eq y) by lra. destruct (Rlt_dec y 100000); [|lra]. unfold low_H0. lra.
Qed.

Lemma C120_dip_aux : forall T, T = 600000 \/ T = 800000 ->
  exists m, 0 < m /\ isolated_dip (recomb_HeP sherwood) T m.
Proof.
  intros T HT. assert (P : 0 < T) by (destruct HT; lra).
  destruct (C119_gap_aux T HT) as (Z & (m & M & del & D & N) & _).
  assert (CB : C (recomb_dielect sherwood) T).
  { destruct (C_tables verner96 T ltac:(auto) P) as (_ & B & _). unfold recomb_dielect. cont. exact B. }
  set (k := 0.75 * kB * (T / 2) * m). assert (K : 0 < k) by (unfold k, kB; nz).
  destruct (near_above _ _ (recomb_dielect sherwood T - k / 2) CB ltac:(lra)) as (d & D' & N').
  exists (k / 2). split; [lra|].
  exists (Rmin (Rmin d del) (T / 2)). split. { repeat apply Rmin_pos; lra. }
  intros y NE Y. pose proof (Rmin_l (Rmin d del) (T / 2)). pose proof (Rmin_r (Rmin d del) (T / 2)).
  pose proof (Rmin_l d del). pose proof (Rmin_r d del).
  specialize (N y NE ltac:(lra)). specialize (N' y ltac:(lra)). apply Rabs_def2 in Y.
  unfold recomb_HeP. cbn [c_recomb sherwood] in *. rewrite Z in *. rewrite Rmult_0_r, Rplus_0_l.
  assert (k <= 0.75 * kB * y * alphaHep verner96 y).
  { unfold k. apply Rmult_le_compat; try lra.
    - unfold kB. nz.
    - apply Rmult_le_compat_l; [unfold kB; lra | lra]. }
  lra.
Qed.
