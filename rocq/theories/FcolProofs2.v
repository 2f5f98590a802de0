(** Proofs about the column density of a particle in floating point: what is added to one pixel. *)
From Coq Require Import ZArith List Bool Lia Lra Reals Psatz.
From Flocq Require Import Core.Raux.
From Verif Require Import FloatModel FloatSpec FloatProofs FloatProofs3 FsearchModel FsearchProofs FsearchProofs2 FcolModel FcolSpec FcolProofs.
Import ListNotations.
Local Open Scope R_scope.

Definition kappa : R := 3 / (4 * PI).

Lemma pi_bounds : 3 < PI <= 4.
Proof. pose proof PI2_3_2. pose proof PI_4. lra. Qed.

Lemma kappa_bounds : 0 < kappa <= / 4.
Proof.
  pose proof pi_bounds. unfold kappa. split; [apply Rdiv_lt_0_compat; lra|].
  apply Rmult_le_reg_r with (4 * PI); [lra|]. unfold Rdiv. rewrite Rmult_assoc, Rinv_l by lra. lra.
Qed.

Lemma kconst_near : Rabs (s64 (s64 (3 / 4) / s64 PI) - kappa) <= kappa / 1125899906842624.
Proof.
  pose proof pi_bounds as B. pose proof kappa_bounds as KB.
  assert (T : / 2 ^ 200 <= 1 / 2) by (eapply Rle_trans; [apply (pinv_le 1 200); lia|]; rewrite pow_1; lra).
  destruct (rel64 (3 / 4)) as (e0 & E0 & ->); [lra|]. destruct (rel64 PI) as (e1 & E1 & ->); [lra|].
  pose proof (abs_bounds _ _ E0) as F0. pose proof (abs_bounds _ _ E1) as F1.
  destruct (rel64 (3 / 4 * (1 + e0) / (PI * (1 + e1)))) as (e2 & E2 & ->).
  { apply Rle_trans with (/ 2 ^ 4); [apply pinv_le; lia|]. replace (/ 2 ^ 4) with (1 / 16) by (cbn [pow]; lra).
    apply Rmult_le_reg_r with (PI * (1 + e1)); [nra|]. unfold Rdiv at 2. rewrite Rmult_assoc, Rinv_l by nra. nra. }
  pose proof (abs_bounds _ _ E2) as F2.
  replace (3 / 4 * (1 + e0) / (PI * (1 + e1)) * (1 + e2) - kappa)
    with (kappa * ((((1 + e0) * (1 + e2) - 1) - e1) / (1 + e1))) by (unfold kappa; field; nra).
  rewrite Rabs_mult, (Rabs_pos_eq kappa) by lra. unfold Rdiv at 2. apply Rmult_le_compat_l; [lra|].
  pose proof (abs_bounds _ _ (prod2 _ _ _ _ E0 E2)) as F3. set (f := (1 + e0) * (1 + e2) - 1) in *. clearbody f.
  apply Rabs_le. split.
  - apply Rmult_le_reg_r with (1 + e1); [lra|]. unfold Rdiv. rewrite Rmult_assoc, Rinv_l by lra. nra.
  - apply Rmult_le_reg_r with (1 + e1); [lra|]. unfold Rdiv. rewrite Rmult_assoc, Rinv_l by lra. nra.
Qed.

Definition clip (zr x : R) : R := Rmax (- zr) (Rmin zr x).

Lemma clip_lip : forall zr x y, 0 <= zr -> Rabs (clip zr x - clip zr y) <= Rabs (x - y).
Proof.
  intros zr x y Z. unfold clip, Rmax, Rmin. repeat destruct (Rle_dec _ _); unfold Rabs; repeat destruct (Rcase_abs _); lra.
Qed.

Lemma clip_bounds : forall zr x, 0 <= zr -> - zr <= clip zr x <= zr.
Proof. intros zr x Z. unfold clip, Rmax, Rmin. repeat destruct (Rle_dec _ _); lra. Qed.

Lemma overlap_clip : forall zr p b, 0 <= zr -> p <= b -> Rmax 0 (Rmin b zr - Rmax p (- zr)) = clip zr b - clip zr p.
Proof. intros zr p b Z H. unfold clip, Rmax, Rmin. repeat destruct (Rle_dec _ _); lra. Qed.

Lemma rmax0_lip : forall x y, Rabs (Rmax 0 x - Rmax 0 y) <= Rabs (x - y).
Proof. intros x y. unfold Rmax. repeat destruct (Rle_dec _ _); unfold Rabs; repeat destruct (Rcase_abs _); lra. Qed.

Lemma single_least : forall x, is_float Single x -> 0 < x -> / 2 ^ 149 <= x.
Proof.
  intros x F P.
  destruct F as (m & e & E & H1 & H2). subst x.
  assert (M : (1 <= m)%Z).
  { destruct (Z.le_gt_cases 1 m) as [|N]; [assumption|exfalso]. assert (IZR m <= 0) by (apply IZR_le; lia).
    assert (0 < powerRZ 2 e) by (apply powerRZ_lt; lra). nra. }
  apply IZR_le in M. assert (Q : / 2 ^ 149 <= powerRZ 2 e).
  { rewrite <- (bpow_inv_pow 149), powerRZ_bpow. apply Raux.bpow_le. cbn in *. lia. }
  assert (0 < powerRZ 2 e) by (apply powerRZ_lt; lra). nra.
Qed.

Section Pixel.

Variables (L v : R) (n : nat) (dx pos zr dens : R).
Hypothesis SZ : sizes L v n.
Hypothesis DX : Rabs (dx - L / INR n) <= L / INR n / 1125899906842624.
Hypothesis POS : 0 <= pos <= L.
Hypothesis ZR : 0 <= zr <= L.
Hypothesis DF : is_float Single dens.
Hypothesis DP : 0 < dens.

Lemma boxlow : / 2 ^ 40 <= L.
Proof. destruct SZ as ((A & _) & _). exact A. Qed.
Lemma LP : 0 < L.
Proof. exact (box_pos L boxlow). Qed.
Lemma n_pos : 1 <= INR n.
Proof. destruct SZ as (_ & _ & A & _). apply (le_INR 1); exact A. Qed.
Lemma n_top : INR n <= 1048576.
Proof.
  destruct SZ as (_ & _ & _ & A). apply le_INR in A. rewrite pow_INR in A. replace (INR 2) with 2 in A by (cbn; lra).
  replace 1048576 with (2 ^ 20) by (cbv [pow]; lra). exact A.
Qed.

Definition g (z : Z) : R := dx * IZR z - pos.

(** [dx] times the number of pixels. *)
Lemma dxn : - (L / 1125899906842624) <= dx * INR n - L <= L / 1125899906842624.
Proof.
  pose proof n_pos as N. pose proof (abs_bounds _ _ DX) as (A & B).
  replace (dx * INR n - L) with ((dx - L / INR n) * INR n) by (field; lra).
  replace (L / 1125899906842624) with (L / INR n / 1125899906842624 * INR n) by (field; lra).
  split.
  - replace (- (L / INR n / 1125899906842624 * INR n)) with (- (L / INR n / 1125899906842624) * INR n) by ring. apply Rmult_le_compat_r; lra.
  - apply Rmult_le_compat_r; lra.
Qed.

Lemma dx_pos : 0 < dx.
Proof. pose proof dxn. pose proof LP. pose proof n_pos. destruct (Rlt_dec 0 dx); [assumption|]. exfalso. nra. Qed.

Lemma dx_le : dx <= L + L / 1048576.
Proof. pose proof dxn. pose proof LP. pose proof n_pos. pose proof dx_pos. nra. Qed.

Lemma dxz : forall z, (Z.abs z <= 3 * Z.of_nat n)%Z -> Rabs (dx * IZR z) <= 4 * L.
Proof.
  intros z H. pose proof dxn. pose proof LP. pose proof dx_pos. rewrite Rabs_mult, (Rabs_pos_eq dx), <- abs_IZR by lra.
  apply IZR_le in H. rewrite mult_IZR, <- INR_IZR_INZ in H. nra.
Qed.

Let p (z : Z) : R := s64 (s64 (dx * IZR z) - pos).
Let b (z : Z) : R := s64 (p z + dx).

Lemma p_le_b : forall z, p z <= b z.
Proof.
  intros z. unfold b. rewrite <- (rnd_id Double (p z)) at 1 by apply rnd_format. apply rnd_le. pose proof dx_pos. lra.
Qed.

Lemma edges_near : forall z, (Z.abs z <= 3 * Z.of_nat n)%Z ->
  Rabs (p z - g z) <= L / 562949953421312 /\ Rabs (b z - g (z + 1)) <= L / 281474976710656 /\ Rabs (p z) <= 6 * L /\ Rabs (b z) <= 9 * L.
Proof.
  intros z H. pose proof LP. pose proof dx_pos. pose proof dx_le. pose proof (dxz z H) as Z1.
  pose proof (abs_bounds _ _ Z1) as Z1'. pose proof (abs_bounds _ _ (len64 L _ _ boxlow Z1)) as E0. unfold b, p, g.
  set (x := s64 (dx * IZR z)) in *. clearbody x.
  assert (B1 : Rabs (x - pos) <= 11 / 2 * L) by (apply Rabs_le; lra).
  pose proof (abs_bounds _ _ (len64 L _ _ boxlow B1)) as E1. set (y := s64 (x - pos)) in *. clearbody y.
  assert (B2 : Rabs (y + dx) <= 8 * L) by (apply Rabs_le; lra).
  pose proof (abs_bounds _ _ (len64 L _ _ boxlow B2)) as E2. set (w := s64 (y + dx)) in *. clearbody w.
  rewrite plus_IZR, Rmult_plus_distr_l. set (q := dx * IZR z) in *. clearbody q. repeat split; apply Rabs_le; lra.
Qed.

Let f (z : Z) : R := Rmax 0 (s64 (Rmin (b z) zr - Rmax (p z) (- zr))).

Lemma f_near : forall z, (Z.abs z <= 3 * Z.of_nat n)%Z ->
  0 <= f z /\ Rabs (f z - (clip zr (g (z + 1)) - clip zr (g z))) <= L / 70368744177664 /\ f z <= 3 * L /\
  (0 < f z -> g z < zr + L / 281474976710656 /\ - zr - L / 281474976710656 < g (z + 1)).
Proof.
  intros z H. pose proof LP as LP. destruct (edges_near z H) as (E0 & E1 & E2 & E3). pose proof (p_le_b z) as PB. unfold f.
  set (p0 := p z) in *. set (b0 := b z) in *. clearbody p0 b0. clear p b f.
  split; [apply Rmax_l|].
  assert (Y : Rabs (Rmin b0 zr - Rmax p0 (- zr)) <= 16 * L).
  { apply abs_bounds in E2. apply abs_bounds in E3. unfold Rmin, Rmax. repeat destruct (Rle_dec _ _); apply Rabs_le; lra. }
  pose proof (len64 L _ _ boxlow Y) as E4.
  pose proof (rmax0_lip (s64 (Rmin b0 zr - Rmax p0 (- zr))) (Rmin b0 zr - Rmax p0 (- zr))) as E5.
  rewrite (overlap_clip zr p0 b0) in E5 by lra.
  pose proof (clip_lip zr p0 (g z) ltac:(lra)) as C0. pose proof (clip_lip zr b0 (g (z + 1)) ltac:(lra)) as C1.
  pose proof (Rle_trans _ _ _ C0 E0) as D0. pose proof (Rle_trans _ _ _ C1 E1) as D1. pose proof (Rle_trans _ _ _ E5 E4) as D2.
  apply abs_bounds in D0. apply abs_bounds in D1. apply abs_bounds in D2.
  pose proof (clip_bounds zr (g z) ltac:(lra)) as G0. pose proof (clip_bounds zr (g (z + 1)) ltac:(lra)) as G1.
  apply abs_bounds in E0. apply abs_bounds in E1.
  split; [|split].
  - apply Rabs_le. lra.
  - lra.
  - intros F. assert (Q : 0 < Rmin b0 zr - Rmax p0 (- zr)).
    { destruct (Rlt_dec 0 (Rmin b0 zr - Rmax p0 (- zr))) as [|N]; [assumption|exfalso].
      assert (0 <= - (Rmin b0 zr - Rmax p0 (- zr))) as N' by lra. apply (rnd_nonneg Double) in N'. rewrite rnd_opp in N'.
      unfold s64 in F. unfold Rmax at 1 in F. destruct (Rle_dec _ _) in F; lra. }
    unfold Rmin, Rmax in Q. repeat destruct (Rle_dec _ _) in Q; lra.
Qed.

Lemma contribution_near : forall z, (Z.abs z <= 3 * Z.of_nat n)%Z ->
  let c := contribution dx pos zr dens z in
  0 <= c /\ format Double c /\
  Rabs (c - dens * kappa * (clip zr (g (z + 1)) - clip zr (g z))) <= dens * L / 70368744177664 /\
  (c <> 0 -> g z < zr + L / 281474976710656 /\ - zr - L / 281474976710656 < g (z + 1)).
Proof.
  intros z H c. destruct (f_near z H) as (F0 & F1 & F2 & F3). pose proof LP as LP. pose proof kappa_bounds as KB.
  assert (EC : c = s64 (dens * s64 (s64 (s64 (3 / 4) / s64 PI) * f z))) by reflexivity. clearbody c.
  pose proof kconst_near as KN. set (K := s64 (s64 (3 / 4) / s64 PI)) in *. clearbody K. apply abs_bounds in KN.
  set (y := f z) in *. clearbody y. set (D := clip zr (g (z + 1)) - clip zr (g z)) in *.
  assert (KP : 0 < K <= / 3) by lra.
  assert (KY : 0 <= K * y <= L) by (split; nra).
  assert (B1 : Rabs (K * y) <= L) by (rewrite Rabs_pos_eq; lra).
  pose proof (abs_bounds _ _ (len64 L _ _ boxlow B1)) as E1.
  assert (W0 : 0 <= s64 (K * y)) by (apply rnd_nonneg; lra).
  assert (WZ : y = 0 -> s64 (K * y) = 0) by (intros ->; rewrite Rmult_0_r; apply rnd_0).
  set (w := s64 (K * y)) in *. clearbody w.
  assert (DW : 0 <= dens * w) by nra.
  pose proof (rnd_any Double _ DW) as E2. fold (s64 (dens * w)) in E2. rewrite unit_double in E2.
  assert (T : tiny_half Double <= dens * L / 1152921504606846976).
  { rewrite <- p60. apply Rle_trans with (/ 2 ^ 249).
    - unfold tiny_half. apply Rinv_le_contravar; [apply pow_lt; lra|]. apply Rle_pow; [lra|lia].
    - change 249%nat with ((149 + 40) + 60)%nat. rewrite !pinv_add. unfold Rdiv. apply Rmult_le_compat_r; [left; apply pinv|].
      pose proof boxlow. pose proof (single_least dens DF DP). pose proof (pinv 149). pose proof (pinv 40). apply Rmult_le_compat; lra. }
  split; [rewrite EC; apply rnd_nonneg; exact DW|]. split; [rewrite EC; apply rnd_format|]. split.
  - rewrite EC. apply abs_bounds in F1.
    assert (KD : Rabs (K * y - kappa * D) <= L / 140737488355328).
    { assert (A1 : - (3 * L * (/ 4 * / 1125899906842624)) <= (K - kappa) * y <= 3 * L * (/ 4 * / 1125899906842624)).
      { assert (Q : Rabs ((K - kappa) * y) <= / 4 * / 1125899906842624 * (3 * L)).
        { rewrite Rabs_mult, (Rabs_pos_eq y) by lra. apply Rmult_le_compat; [apply Rabs_pos|lra|apply Rabs_le; lra|lra]. }
        apply abs_bounds in Q. lra. }
      assert (A2 : - (/ 4 * (L / 70368744177664)) <= kappa * (y - D) <= / 4 * (L / 70368744177664)).
      { assert (Q : Rabs (kappa * (y - D)) <= / 4 * (L / 70368744177664)).
        { rewrite Rabs_mult, (Rabs_pos_eq kappa) by lra. apply Rmult_le_compat; [lra|apply Rabs_pos|lra|apply Rabs_le; lra]. }
        apply abs_bounds in Q. lra. }
      replace (K * y - kappa * D) with ((K - kappa) * y + kappa * (y - D)) by ring. apply Rabs_le. lra. }
    apply abs_bounds in KD.
    replace (s64 (dens * w) - dens * kappa * D) with ((s64 (dens * w) - dens * w) + dens * (w - kappa * D)) by ring.
    set (kd := kappa * D) in *. clearbody kd. set (ky := K * y) in *. clearbody ky.
    assert (A3 : dens * w <= dens * (2 * L)) by (apply Rmult_le_compat_l; lra).
    assert (A4 : - (dens * (L / 140737488355328 + L / 1125899906842624)) <= dens * (w - kd) <= dens * (L / 140737488355328 + L / 1125899906842624)).
    { rewrite Ropp_mult_distr_r. split; apply Rmult_le_compat_l; lra. }
    set (dk := dens * (w - kd)) in *. clearbody dk. set (dw := dens * w) in *. clearbody dw.
    set (sv := s64 dw) in *. clearbody sv. apply Rabs_le. set (dl := dens * L) in *.
    replace (dens * (2 * L)) with (2 * dl) in A3 by (unfold dl; ring).
    replace (dens * (L / 140737488355328 + L / 1125899906842624)) with (dl / 140737488355328 + dl / 1125899906842624) in A4 by (unfold dl; field).
    assert (0 <= dl) by (unfold dl; nra). clearbody dl. lra.
  - intros NZ. apply F3. destruct (Req_dec y 0) as [Y|Y]; [|lra]. exfalso. apply NZ. rewrite EC, (WZ Y), Rmult_0_r. apply rnd_0.
Qed.

End Pixel.
