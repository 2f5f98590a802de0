(** Proofs about the Voigt profile: the continued fraction and the wings. *)
From Coq Require Import Reals ZArith Lra Lia.
From Coquelicot Require Import Coquelicot.
From Coq Require Import List.
From Flocq Require Import Core.Raux.
From Verif Require Import FaddTable FaddModel FaddSpec FaddProofs FaddProofs2.
Import ListNotations.
Local Open Scope R_scope.

Lemma ispi_isp : ispi = isp.
Proof. reflexivity. Qed.

(** ** The loop computes the continued fraction *)
Lemma step_fraction : forall k x y (v : C),
  Cminus (x, y) (Cdiv (RtoC (INR k / 2)) v) =
  (x - fst v * (0.5 * INR k / (fst v * fst v + snd v * snd v)),
   y + snd v * (0.5 * INR k / (fst v * fst v + snd v * snd v))).
Proof.
  intros k x y [r i]. unfold Cminus, Cplus, Copp, Cdiv, Cmult, Cinv, RtoC. cbn [fst snd].
  replace (r ^ 2 + i ^ 2) with (r * r + i * i) by ring. unfold Rdiv.
  set (d := / (r * r + i * i)). f_equal; lra.
Qed.

Lemma cf_loop_fraction : forall k n x y (v : C), v = fraction n (S k) (x, y) ->
  cf_loop k x y (fst v) (snd v) = fraction (n + k) 1 (x, y).
Proof.
  induction k as [| k IH]; intros n x y v Hv.
  - cbn [cf_loop]. rewrite Nat.add_0_r, <- Hv. destruct v; reflexivity.
  - cbn [cf_loop]. replace (n + S k)%nat with (S n + k)%nat by lia.
    rewrite <- (IH (S n) x y (Cminus (x, y) (Cdiv (RtoC (INR (S k) / 2)) v))).
    + rewrite step_fraction. cbn [fst snd]. reflexivity.
    + cbn [fraction]. rewrite <- Hv. reflexivity.
Qed.

Lemma div_form : forall (v : C),
  Cdiv (Cmult Ci (RtoC isp)) v =
  (isp / (fst v * fst v + snd v * snd v) * snd v, isp / (fst v * fst v + snd v * snd v) * fst v).
Proof.
  intros [r i]. unfold Cdiv, Cmult, Cinv, Ci, RtoC. cbn [fst snd].
  replace (r ^ 2 + i ^ 2) with (r * r + i * i) by ring. unfold Rdiv.
  set (d := / (r * r + i * i)). f_equal; ring.
Qed.

Lemma terms_pos : forall x y n, 0 <= x -> 0 <= y -> terms x y n -> (1 <= n)%nat.
Proof.
  intros x y n Hx Hy [[_ ->] | [[_ ->] | [_ H]]]; [lia | lia |].
  assert (H0 : 0 < 11.398 / (0.08254 * x + 0.1421 * y + 0.2023)) by (apply Rdiv_lt_0_compat; lra).
  destruct n as [| n]; [| lia]. cbn in H. lra.
Qed.

Lemma cf_value_laplace : forall x y n, 0 < y -> terms (Rabs x) y n -> cf_value (Rabs x) y x = laplace n (x, y).
Proof.
  intros x y n Hy HT. pose proof (Rabs_pos x) as Hx. unfold cf_value, laplace.
  destruct HT as [[H ->] | [[H ->] | [H HN]]].
  - destruct (Rlt_dec 4000 (Rabs x + y)) as [_ | E]; [| lra].
    destruct (Rlt_dec 10000000 (Rabs x + y)) as [_ | E]; [| lra].
    cbn [fraction Nat.sub]. rewrite div_form. cbn [fst snd]. rewrite <- ispi_isp.
    assert (HD : x * x + y * y <> 0) by nra.
    destruct (Rlt_dec y (Rabs x)) as [Hc | Hc].
    + assert (x <> 0) by (intros ->; rewrite Rabs_R0 in Hc; lra).
      f_equal; field; repeat split; try assumption; nra.
    + f_equal; field; repeat split; try nra.
  - destruct (Rlt_dec 4000 (Rabs x + y)) as [_ | E]; [| lra].
    destruct (Rlt_dec 10000000 (Rabs x + y)) as [E | _]; [lra |].
    cbn [fraction Nat.sub]. rewrite step_fraction, div_form. cbn [fst snd]. change (INR 1) with 1. rewrite <- ispi_isp.
    assert (HD : x * x + y * y <> 0) by nra.
    assert (HQ : 1 < x * x + y * y).
    { assert (E : x * x = Rabs x * Rabs x) by (unfold Rabs; destruct (Rcase_abs x); ring). rewrite E.
      destruct (Rlt_dec 2 y); [nra |]. assert (2 < Rabs x) by lra. nra. }
    set (p := x * x + y * y) in *.
    assert (E1 : x - x * (0.5 * 1 / p) = x * (p - 0.5) / p) by (field; assumption).
    assert (E2 : y + y * (0.5 * 1 / p) = y * (p + 0.5) / p) by (field; assumption).
    rewrite E1, E2.
    assert (HA : x * (p - 0.5) / p * (x * (p - 0.5) / p) + y * (p + 0.5) / p * (y * (p + 0.5) / p) =
                 ((x * x - y * y - 0.5) * (x * x - y * y - 0.5) + 2 * x * y * (2 * x * y)) / p).
    { unfold p. field. exact HD. }
    rewrite HA.
    assert (HB : (x * x - y * y - 0.5) * (x * x - y * y - 0.5) + 2 * x * y * (2 * x * y) <> 0).
    { assert ((x * x - y * y - 0.5) * (x * x - y * y - 0.5) + 2 * x * y * (2 * x * y) =
              (x * x + y * y - 0.5) * (x * x + y * y - 0.5) + 2 * (y * y)) by lra.
      rewrite H0. fold p. assert (0 < (p - 0.5) * (p - 0.5)) by nra. nra. }
    set (q := (x * x - y * y - 0.5) * (x * x - y * y - 0.5) + 2 * x * y * (2 * x * y)) in *.
    f_equal; unfold p in *; field; split; assumption.
  - destruct (Rlt_dec 4000 (Rabs x + y)) as [E | _]; [lra |].
    pose proof (terms_pos (Rabs x) y n Hx (Rlt_le _ _ Hy) ltac:(right; right; split; assumption)) as Hn1.
    set (F := Zfloor _).
    assert (HF : F = Z.of_nat n).
    { unfold F. apply Zfloor_imp. rewrite plus_IZR, <- INR_IZR_INZ. exact HN. }
    rewrite HF. replace (Z.to_nat (Z.of_nat n - 1)) with (n - 1)%nat by lia.
    pose proof (cf_loop_fraction (n - 1) 0 x y (x, y) eq_refl) as HL. cbn [Nat.add fst snd] in HL. rewrite HL.
    destruct (fraction (n - 1) 1 (x, y)) as [r i]. rewrite div_form. cbn [fst snd]. rewrite <- ispi_isp. reflexivity.
Qed.

Lemma outer_region : forall x y, outer x y -> cf_region x y.
Proof. unfold outer, cf_region. intros. lra. Qed.

Lemma w_wing : forall w_im fuel x y, x <> 0 -> 0 < y -> outer (Rabs x) y ->
  w w_im fuel x y = Value (cf_value (Rabs x) y x).
Proof.
  intros w_im fuel x y Hx Hy HO. unfold w.
  destruct (Req_EM_T x 0) as [E | _]; [contradiction |].
  destruct (Req_EM_T y 0) as [E | _]; [lra |].
  rewrite (Rabs_pos_eq y) by lra. apply outer_region in HO.
  destruct (cf_region_dec (Rabs x) y) as [_ | E]; [| contradiction].
  destruct (Rlt_dec y 0); [lra |]. reflexivity.
Qed.

Lemma wing_aux : forall w_im fuel x y n, x <> 0 -> 0 < y -> outer (Rabs x) y -> terms (Rabs x) y n ->
  w w_im fuel x y = Value (laplace n (x, y)).
Proof. intros. rewrite w_wing by assumption. f_equal. apply cf_value_laplace; assumption. Qed.

Lemma terms_exists : forall x y, 0 <= x -> 0 <= y -> exists n, terms x y n.
Proof.
  intros x y Hx Hy. unfold terms.
  destruct (Rlt_dec 10000000 (x + y)); [exists 1%nat; tauto |].
  destruct (Rlt_dec 4000 (x + y)); [exists 2%nat; right; left; split; [lra | reflexivity] |].
  set (v := 3.9 + 11.398 / (0.08254 * x + 0.1421 * y + 0.2023)).
  assert (Hv : 0 <= v).
  { unfold v. assert (0 < 11.398 / (0.08254 * x + 0.1421 * y + 0.2023)) by (apply Rdiv_lt_0_compat; lra). lra. }
  exists (Z.to_nat (Zfloor v)). right; right.
  assert (0 <= Zfloor v)%Z by (apply Zfloor_lub; exact Hv).
  rewrite INR_IZR_INZ, Z2Nat.id by assumption.
  split; [lra |]. split; [apply Zfloor_lb | apply Zfloor_ub].
Qed.

(** ** Positivity *)
Lemma fraction_im : forall n k x y, 0 < y -> y <= snd (fraction n k (x, y)).
Proof.
  induction n as [| n IH]; intros k x y Hy; [cbn; lra |].
  cbn [fraction]. rewrite step_fraction. cbn [snd].
  pose proof (IH (S k) x y Hy) as H. destruct (fraction n (S k) (x, y)) as [r i]. cbn [fst snd] in *.
  assert (0 < r * r + i * i) by nra.
  assert (0 <= 0.5 * INR k / (r * r + i * i)).
  { apply Rmult_le_pos; [| left; apply Rinv_0_lt_compat; assumption].
    pose proof (pos_INR k). lra. }
  nra.
Qed.

Lemma isp_pos : 0 < isp.
Proof. unfold isp. lra. Qed.

Lemma laplace_pos : forall n x y, 0 < y -> 0 < fst (laplace n (x, y)) <= isp / y.
Proof.
  intros n x y Hy. unfold laplace. rewrite div_form. cbn [fst].
  pose proof (fraction_im (n - 1) 1 x y Hy) as H. destruct (fraction (n - 1) 1 (x, y)) as [r i]. cbn [fst snd] in *.
  pose proof isp_pos. assert (HP : 0 < r * r + i * i) by nra.
  split.
  - apply Rmult_lt_0_compat; [apply Rdiv_lt_0_compat; assumption | lra].
  - replace (isp / (r * r + i * i) * i) with (isp * i / (r * r + i * i)) by (field; lra).
    apply (Rmult_le_reg_r (r * r + i * i)); [assumption |].
    replace (isp * i / (r * r + i * i) * (r * r + i * i)) with (isp * i) by (field; lra).
    apply (Rmult_le_reg_r y); [assumption |].
    replace (isp / y * (r * r + i * i) * y) with (isp * (r * r + i * i)) by (field; lra).
    rewrite Rmult_assoc. apply Rmult_le_compat_l; nra.
Qed.

Lemma positive_aux : forall w_im fuel x y, x <> 0 -> 0 < y -> outer (Rabs x) y ->
  exists v, profile w_im fuel x y = Some v /\ 0 < v <= isp / y.
Proof.
  intros w_im fuel x y Hx Hy HO. destruct (terms_exists (Rabs x) y (Rabs_pos x) (Rlt_le _ _ Hy)) as [n Hn].
  unfold profile. rewrite (wing_aux w_im fuel x y n) by assumption.
  eexists; split; [reflexivity |]. apply laplace_pos. assumption.
Qed.

(** ** Close to a Lorentz profile *)
Lemma sumsq_Cmod : forall v : C, fst v * fst v + snd v * snd v = Cmod v * Cmod v.
Proof. intros [r i]. unfold Cmod. cbn [fst snd]. rewrite sqrt_sqrt by nra. ring. Qed.

Lemma fraction_mod : forall n k x y M, 0 < y -> M = Cmod (x, y) -> 784 <= M * M -> 0 < M -> (k + n <= 8)%nat ->
  M - 4 / M <= Cmod (fraction n k (x, y)) <= M + 4 / M.
Proof.
  induction n as [| n IH]; intros k x y M Hy HM HM2 HM0 Hk.
  - cbn [fraction]. rewrite <- HM. assert (0 < 4 / M) by (apply Rdiv_lt_0_compat; lra). lra.
  - cbn [fraction].
    pose proof (IH (S k) x y M Hy HM HM2 HM0 ltac:(lia)) as [H1 _].
    pose proof (fraction_im n (S k) x y Hy) as Him.
    set (F := fraction n (S k) (x, y)) in *.
    assert (HF0 : F <> 0).
    { intros E. rewrite E in Him. cbn in Him. lra. }
    assert (HMs : M * 7 / 8 <= M - 4 / M).
    { assert (4 / M <= M / 8); [| lra].
      apply (Rmult_le_reg_r M); [assumption |]. replace (4 / M * M) with 4 by (field; lra). lra. }
    set (Q := Cdiv (RtoC (INR k / 2)) F).
    assert (HQ : Cmod Q <= 4 / M).
    { unfold Q. rewrite Cmod_div by assumption. rewrite Cmod_R, Rabs_pos_eq by (pose proof (pos_INR k); lra).
      assert (Hk2 : INR k <= 7). { replace 7 with (INR 7) by (cbn; lra). apply le_INR. lia. }
      pose proof (pos_INR k).
      apply (Rmult_le_reg_r (Cmod F)); [lra |].
      replace (INR k / 2 / Cmod F * Cmod F) with (INR k / 2) by (field; lra).
      apply Rle_trans with (4 / M * (M * 7 / 8)).
      - replace (4 / M * (M * 7 / 8)) with (7 / 2) by (field; lra). lra.
      - apply Rmult_le_compat_l; [| lra]. left. apply Rdiv_lt_0_compat; lra. }
    split.
    + pose proof (Cmod_triangle (Cminus (x, y) Q) Q) as HT.
      assert (EQ : Cplus (Cminus (x, y) Q) Q = (x, y)).
      { destruct Q as [q1 q2]. unfold Cminus, Cplus, Copp. cbn [fst snd]. f_equal; ring. }
      rewrite EQ, <- HM in HT. lra.
    + pose proof (Cmod_triangle (x, y) (Copp Q)) as HT. rewrite Cmod_opp, <- HM in HT.
      unfold Cminus. lra.
Qed.

Lemma fraction_im_upper : forall n k x y M, 0 < y -> M = Cmod (x, y) -> 784 <= M * M -> 0 < M -> (k + n <= 8)%nat ->
  snd (fraction n k (x, y)) <= y * (1 + 5 / (M * M)).
Proof.
  induction n as [| n IH]; intros k x y M Hy HM HM2 HM0 Hk.
  - cbn [fraction snd]. assert (0 < 5 / (M * M)) by (apply Rdiv_lt_0_compat; lra). nra.
  - cbn [fraction]. rewrite step_fraction. cbn [snd].
    pose proof (IH (S k) x y M Hy HM HM2 HM0 ltac:(lia)) as H1.
    pose proof (fraction_im n (S k) x y Hy) as Him.
    pose proof (fraction_mod n (S k) x y M Hy HM HM2 HM0 ltac:(lia)) as [H2 _].
    set (F := fraction n (S k) (x, y)) in *.
    rewrite sumsq_Cmod.
    assert (HMs : M * 0.99 <= M - 4 / M).
    { assert (4 / M <= M * 0.01); [| lra].
      apply (Rmult_le_reg_r M); [assumption |]. replace (4 / M * M) with 4 by (field; lra). lra. }
    assert (HC : M * M * 0.98 <= Cmod F * Cmod F).
    { apply Rle_trans with (M * 0.99 * (M * 0.99)); [nra |]. apply Rmult_le_compat; nra. }
    assert (Hk2 : INR k <= 7). { replace 7 with (INR 7) by (cbn; lra). apply le_INR. lia. }
    pose proof (pos_INR k) as Hk0.
    set (D := Cmod F * Cmod F) in *. assert (HD : 0 < D) by nra.
    assert (HI : snd F <= y * 1.01).
    { apply Rle_trans with (1 := H1). apply Rmult_le_compat_l; [lra |].
      assert (5 / (M * M) <= 0.01); [| lra].
      apply (Rmult_le_reg_r (M * M)); [lra |]. replace (5 / (M * M) * (M * M)) with 5 by (field; lra). lra. }
    assert (HG : snd F * (0.5 * INR k / D) <= y * (5 / (M * M))).
    { apply Rle_trans with (y * 1.01 * (3.5 / (M * M * 0.98))).
      - apply Rmult_le_compat; [lra | | assumption |].
        + apply Rmult_le_pos; [lra | left; apply Rinv_0_lt_compat; assumption].
        + apply Rmult_le_compat; [lra | left; apply Rinv_0_lt_compat; assumption | lra |].
          apply Rinv_le_contravar; [nra | assumption].
      - assert (0 < / (M * M)) by (apply Rinv_0_lt_compat; lra).
        replace (3.5 / (M * M * 0.98)) with (3.5 / 0.98 * / (M * M)) by (field; lra).
        unfold Rdiv. nra. }
    lra.
Qed.

Lemma terms_le : forall x y n, 0 <= x -> 0 <= y -> 28 <= x \/ 28 <= y -> terms x y n -> (n <= 8)%nat.
Proof.
  intros x y n Hx Hy Hb [[_ ->] | [[_ ->] | [_ [H _]]]]; [lia | lia |].
  assert (HD : 2.5 <= 0.08254 * x + 0.1421 * y + 0.2023) by lra.
  assert (11.398 / (0.08254 * x + 0.1421 * y + 0.2023) <= 11.398 / 2.5).
  { apply Rmult_le_compat_l; [lra |]. apply Rinv_le_contravar; lra. }
  assert (Hn : INR n < INR 9) by (replace (INR 9) with 9 by (cbn; lra); lra).
  apply INR_lt in Hn. lia.
Qed.


Lemma laplace_lorentz : forall n x y, 0 < y -> 28 <= Rabs x \/ 28 <= y -> (n <= 8)%nat ->
  Rabs (fst (laplace n (x, y)) - lorentz x y) <= 14 / (x * x + y * y) * lorentz x y.
Proof.
  intros n x y Hy Hb Hn.
  assert (Hxx : x * x = Rabs x * Rabs x) by (unfold Rabs; destruct (Rcase_abs x); ring).
  assert (HQ : 784 <= x * x + y * y) by (rewrite Hxx; pose proof (Rabs_pos x); destruct Hb; nra).
  set (M := Cmod (x, y)).
  pose proof (sumsq_Cmod (x, y)) as EM. cbn [fst snd] in EM. fold M in EM.
  assert (HM0 : 0 < M).
  { destruct (Rle_lt_or_eq_dec _ _ (Cmod_ge_0 (x, y))) as [Hp | Hz]; [assumption |]. fold M in Hz. rewrite <- Hz in EM. lra. }
  unfold laplace. rewrite div_form. cbn [fst]. rewrite sumsq_Cmod.
  assert (HK : (1 + (n - 1) <= 8)%nat) by lia.
  pose proof (fraction_im (n - 1) 1 x y Hy) as HI1.
  pose proof (fraction_im_upper (n - 1) 1 x y M Hy eq_refl ltac:(lra) HM0 HK) as HI2.
  pose proof (fraction_mod (n - 1) 1 x y M Hy eq_refl ltac:(lra) HM0 HK) as [HA HB].
  set (F := fraction (n - 1) 1 (x, y)) in *.
  set (I := snd F) in *. set (A := Cmod F) in *.
  unfold lorentz. rewrite EM. pose proof isp_pos as Hisp.
  set (e := / (M * M)).
  assert (He : 0 < e <= / 784).
  { split; [apply Rinv_0_lt_compat; lra | apply Rinv_le_contravar; lra]. }
  assert (HMe : M * M * e = 1) by (unfold e; apply Rinv_r; lra).
  assert (HA2 : (1 - 4 * e) * (1 - 4 * e) <= A * A * e).
  { assert (E : M - 4 / M = M * (1 - 4 * e)) by (unfold e; field; lra). rewrite E in HA.
    assert (0 <= M * (1 - 4 * e)) by (apply Rmult_le_pos; lra).
    assert (M * (1 - 4 * e) * (M * (1 - 4 * e)) <= A * A) by (apply Rmult_le_compat; assumption).
    replace ((1 - 4 * e) * (1 - 4 * e)) with (M * (1 - 4 * e) * (M * (1 - 4 * e)) * e)
      by (replace (M * (1 - 4 * e) * (M * (1 - 4 * e)) * e) with ((1 - 4 * e) * (1 - 4 * e) * (M * M * e)) by ring;
          rewrite HMe; ring).
    apply Rmult_le_compat_r; lra. }
  assert (HB2 : A * A * e <= (1 + 4 * e) * (1 + 4 * e)).
  { assert (E : M + 4 / M = M * (1 + 4 * e)) by (unfold e; field; lra). rewrite E in HB.
    assert (0 <= A) by (apply Cmod_ge_0).
    assert (A * A <= M * (1 + 4 * e) * (M * (1 + 4 * e))) by (apply Rmult_le_compat; assumption).
    replace ((1 + 4 * e) * (1 + 4 * e)) with (M * (1 + 4 * e) * (M * (1 + 4 * e)) * e)
      by (replace (M * (1 + 4 * e) * (M * (1 + 4 * e)) * e) with ((1 + 4 * e) * (1 + 4 * e) * (M * M * e)) by ring;
          rewrite HMe; ring).
    apply Rmult_le_compat_r; lra. }
  set (r := A * A * e) in *.
  assert (Hr : 0 < r) by nra.
  assert (HAA : A * A = r * (M * M)).
  { unfold r. replace (A * A * e * (M * M)) with (A * A * (M * M * e)) by ring. rewrite HMe. ring. }
  rewrite HAA.
  assert (Hi : exists t, I = y * t /\ 1 <= t <= 1 + 5 * e).
  { exists (I / y). split; [field; lra |]. split.
    - apply (Rmult_le_reg_r y); [assumption |]. replace (I / y * y) with I by (field; lra). lra.
    - apply (Rmult_le_reg_r y); [assumption |]. replace (I / y * y) with I by (field; lra).
      unfold e. unfold Rdiv in HI2. lra. }
  destruct Hi as [t [Et Ht]]. rewrite Et.
  replace (isp / (r * (M * M)) * (y * t) - isp * y / (M * M)) with (isp * y * e * (t / r - 1))
    by (unfold e; field; split; lra).
  replace (14 / (M * M) * (isp * y / (M * M))) with (isp * y * e * (14 * e)) by (unfold e; field; lra).
  assert (HP : 0 <= isp * y * e) by (apply Rmult_le_pos; [apply Rmult_le_pos |]; lra).
  rewrite Rabs_mult, (Rabs_pos_eq (isp * y * e)) by assumption.
  apply Rmult_le_compat_l; [assumption |].
  apply Rabs_le. split.
  - apply (Rmult_le_reg_r r); [assumption |]. replace ((t / r - 1) * r) with (t - r) by (field; lra). nra.
  - apply (Rmult_le_reg_r r); [assumption |]. replace ((t / r - 1) * r) with (t - r) by (field; lra).
    apply Rle_trans with (1 + 5 * e - r); [lra |].
    assert ((1 + 14 * e) * ((1 - 4 * e) * (1 - 4 * e)) <= (1 + 14 * e) * r) by (apply Rmult_le_compat_l; lra).
    assert (1 + 5 * e <= (1 + 14 * e) * ((1 - 4 * e) * (1 - 4 * e))); [| lra].
    assert (0 <= e * (1 - 96 * e)) by nra.
    assert (0 <= e * e * e) by (repeat apply Rmult_le_pos; lra). lra.
Qed.

Lemma lorentz_aux : forall w_im fuel x y, 0 < y -> 28 < Rabs x \/ (28 < y /\ x <> 0) ->
  exists v, profile w_im fuel x y = Some v /\
            Rabs (v - lorentz x y) <= 14 / (x * x + y * y) * lorentz x y.
Proof.
  intros w_im fuel x y Hy Hb.
  assert (Hx : x <> 0). { destruct Hb as [Hb | [_ Hb]]; [| assumption]. intros ->. rewrite Rabs_R0 in Hb. lra. }
  destruct (terms_exists (Rabs x) y (Rabs_pos x) (Rlt_le _ _ Hy)) as [n Hn].
  assert (HO : outer (Rabs x) y) by (unfold outer; destruct Hb as [Hb | [Hb _]]; [right; left | left]; lra).
  assert (Hb' : 28 <= Rabs x \/ 28 <= y) by (destruct Hb as [Hb | [Hb _]]; [left | right]; lra).
  unfold profile. rewrite (wing_aux w_im fuel x y n) by assumption.
  eexists; split; [reflexivity |]. apply laplace_lorentz; [assumption | assumption |].
  apply (terms_le (Rabs x) y); [apply Rabs_pos | lra | assumption | assumption].
Qed.
