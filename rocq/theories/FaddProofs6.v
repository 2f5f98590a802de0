(** erfcx is within 1e-12 of the truth; existence of the truth. *)
From Coq Require Import Reals ZArith Lra Lia Machin Ratan.
From Coquelicot Require Import Coquelicot.
From Coq Require Import List.
From Flocq Require Import Core.Raux.
From Verif Require Import FaddTable FaddModel FaddSpec FaddProofs FaddProofs2 FaddProofs4 FaddProofs5.
Import ListNotations.
Local Open Scope R_scope.

Lemma PI_close : 3.141592653589793 <= PI <= 3.1415926535897935.
Proof.
  pose proof (PI_2_3_7_ineq 8) as H.
  unfold PI_2_3_7_tg, tg_alt, Ratan_seq in H. cbn [Nat.mul Nat.add] in H.
  cbn [sum_f_R0 pow] in H. rewrite !INR_IZR_INZ in H. cbn -[PI IZR Rmult Rplus Rdiv Rinv Ropp] in H.
  lra.
Qed.

(** The code's 1/sqrt(pi) is right to about 1e-16. *)
Lemma isp_close : Rabs (1 / sqrt PI - isp) <= 0.0000000000000001.
Proof.
  pose proof PI_close as HP. set (q := 1 / sqrt PI).
  assert (Hs : 0 < sqrt PI) by (apply sqrt_lt_R0; lra).
  assert (Hq : 0 < q) by (unfold q; apply Rdiv_lt_0_compat; lra).
  assert (HqP : q * q * PI = 1).
  { unfold q. rewrite <- (sqrt_sqrt PI) at 3 by lra. field. lra. }
  apply Rabs_le. split.
  - apply Rnot_lt_le. intros H.
    assert (H1 : q < isp - 0.0000000000000001) by lra.
    assert (H2 : q * q <= (isp - 0.0000000000000001) * (isp - 0.0000000000000001)) by nra.
    assert (H3 : q * q * PI <= (isp - 0.0000000000000001) * (isp - 0.0000000000000001) * 3.1415926535897935).
    { apply Rmult_le_compat; nra. }
    unfold isp in H3. lra.
  - apply Rnot_lt_le. intros H.
    assert (H1 : isp + 0.0000000000000001 < q) by lra. pose proof (eq_refl isp) as _.
    assert (H0 : 0 < isp) by (unfold isp; lra).
    assert (H2 : (isp + 0.0000000000000001) * (isp + 0.0000000000000001) <= q * q) by nra.
    assert (H3 : (isp + 0.0000000000000001) * (isp + 0.0000000000000001) * 3.141592653589793 <= q * q * PI).
    { apply Rmult_le_compat; nra. }
    unfold isp in H3. lra.
Qed.

Section Accuracy.
Variable g : R -> R.
Hypothesis Hg : is_erfcx g.

Let kap := 2 / sqrt PI - 2 * isp.

Lemma kap_small : Rabs kap <= 0.0000000000000002.
Proof.
  unfold kap. pose proof isp_close as H. replace (2 / sqrt PI - 2 * isp) with (2 * (1 / sqrt PI - isp)).
  - rewrite Rabs_mult, (Rabs_pos_eq 2) by lra. lra.
  - field. apply Rgt_not_eq. apply sqrt_lt_R0. pose proof PI_close. lra.
Qed.

(** The difference to the truth of a function with the residual r. *)
Lemma diff_derive : forall (f r : R -> R) t, is_derive f t (2 * t * f t - 2 * isp + r t) ->
  is_derive (fun u => f u - g u) t (2 * t * (f t - g t) + (r t + kap)).
Proof.
  intros f r t H. apply is_derive_Reals.
  replace (2 * t * (f t - g t) + (r t + kap)) with (2 * t * f t - 2 * isp + r t - (2 * t * g t - 2 / sqrt PI))
    by (unfold kap; ring).
  apply (derivable_pt_lim_minus f g); apply is_derive_Reals; [exact H | apply (g_derive g Hg)].
Qed.

(** ** x > 50 *)
Definition tail5 (x : R) : R := ispi * ((x * x) * (x * x + 4.5) + 2) / (x * ((x * x) * (x * x + 5) + 3.75)).

Lemma tail5_den : forall x, 1 <= x -> x * x * x * x * x <= x * ((x * x) * (x * x + 5) + 3.75) /\
  1 <= x * ((x * x) * (x * x + 5) + 3.75).
Proof.
  intros x Hx. assert (Hs : 1 <= x * x) by nra.
  replace (x * x * x * x * x) with (x * (x * x * (x * x))) by ring. set (s := x * x) in *.
  split; [apply Rmult_le_compat_l; nra |].
  assert (1 <= s * (s + 5) + 3.75) by nra. nra.
Qed.

Lemma tail5_derive : forall x, 1 <= x ->
  is_derive tail5 x (2 * x * tail5 x - 2 * isp +
                     - (7.5 * isp) / (x * ((x * x) * (x * x + 5) + 3.75) * (x * ((x * x) * (x * x + 5) + 3.75)))).
Proof.
  intros x Hx. destruct (tail5_den x Hx) as [_ HD].
  unfold tail5. change ispi with isp.
  replace 4.5 with (9 / 2) by lra. replace 3.75 with (15 / 4) in * by lra. replace 7.5 with (15 / 2) by lra. auto_derive.
  - lra.
  - field. assert (0 < x * x) by nra. split; nra.
Qed.

Lemma tail_bounded : forall x, 1 <= x -> 0 <= tail5 x <= 1.
Proof.
  intros x Hx. destruct (tail5_den x Hx) as [_ HD]. unfold tail5.
  set (s := x * x) in *. assert (Hs : 1 <= s) by (unfold s; nra).
  assert (HN : 0 <= s * (s + 4.5) + 2) by nra.
  assert (Hi : 0 < ispi < 1) by (unfold ispi; lra). split.
  - apply Rmult_le_pos; [apply Rmult_le_pos; lra | left; apply Rinv_0_lt_compat; lra].
  - apply (Rmult_le_reg_r (x * (s * (s + 5) + 3.75))); [lra |].
    replace (ispi * (s * (s + 4.5) + 2) / (x * (s * (s + 5) + 3.75)) * (x * (s * (s + 5) + 3.75)))
      with (ispi * (s * (s + 4.5) + 2)) by (field; lra).
    apply Rle_trans with (1 * (s * (s + 4.5) + 2)); [apply Rmult_le_compat_r; lra |].
    assert (s * (s + 4.5) + 2 <= s * (s + 5) + 3.75) by nra.
    assert (1 * (s * (s + 5) + 3.75) <= x * (s * (s + 5) + 3.75)) by (apply Rmult_le_compat_r; nra). lra.
Qed.

Lemma Rabs_diff1 : forall a b, 0 <= a <= 1 -> 0 <= b <= 1 -> Rabs (a - b) <= 1.
Proof. intros. apply Rabs_le. lra. Qed.

Lemma tail5_close : forall x, 50 <= x -> Rabs (tail5 x - g x) <= 0.000000000000000005.
Proof.
  intros x Hx.
  apply Rle_trans with (0.0000000000000003 / (2 * 50)); [| lra].
  apply (decay_inf (fun u => tail5 u - g u)
    (fun u => - (7.5 * isp) / (u * ((u * u) * (u * u + 5) + 3.75) * (u * ((u * u) * (u * u + 5) + 3.75))) + kap)
    x 50 0.0000000000000003 1); try lra.
  - intros t Ht.
    apply (diff_derive tail5
      (fun u => - (7.5 * isp) / (u * ((u * u) * (u * u + 5) + 3.75) * (u * ((u * u) * (u * u + 5) + 3.75))))).
    apply tail5_derive. lra.
  - intros t Ht. apply Rle_trans with (1 := Rabs_triang _ _).
    pose proof kap_small as HK.
    assert (HR : Rabs (- (7.5 * isp) / (t * ((t * t) * (t * t + 5) + 3.75) * (t * ((t * t) * (t * t + 5) + 3.75)))) <=
                 0.0000000000000001); [| lra].
    destruct (tail5_den t ltac:(lra)) as [H1 H2]. set (D := t * ((t * t) * (t * t + 5) + 3.75)) in *.
    assert (HD : 300000000 <= D).
    { apply Rle_trans with (2 := H1).
      assert (2500 <= t * t) by nra. assert (125000 <= t * t * t) by nra. assert (6250000 <= t * t * t * t) by nra. nra. }
    assert (HDD : 90000000000000000 <= D * D) by nra.
    unfold Rdiv. rewrite Rabs_mult, Rabs_Ropp, (Rabs_pos_eq (7.5 * isp)) by (unfold isp; lra).
    rewrite Rabs_pos_eq by (left; apply Rinv_0_lt_compat; lra).
    apply Rle_trans with (7.5 * isp * / 90000000000000000).
    + apply Rmult_le_compat_l; [unfold isp; lra |]. apply Rinv_le_contravar; lra.
    + unfold isp. lra.
  - intros t Ht. apply Rabs_diff1; [apply tail_bounded; lra | apply (g_bounds g Hg); lra].
Qed.

Lemma tail1_close : forall x, 50000000 <= x -> Rabs (ispi / x - g x) <= 0.00000000000000001.
Proof.
  intros x Hx.
  apply Rle_trans with (0.0000000000000006 / (2 * 50000000)); [| lra].
  apply (decay_inf (fun u => ispi / u - g u) (fun u => - isp / (u * u) + kap) x 50000000 0.0000000000000006 1); try lra.
  - intros t Ht. apply (diff_derive (fun u => ispi / u) (fun u => - isp / (u * u))). change ispi with isp. auto_derive.
    + lra.
    + field. lra.
  - intros t Ht. apply Rle_trans with (1 := Rabs_triang _ _). pose proof kap_small as HK.
    assert (HR : Rabs (- isp / (t * t)) <= 0.0000000000000003); [| lra].
    assert (HT : 2500000000000000 <= t * t) by nra.
    unfold Rdiv. rewrite Rabs_mult, Rabs_Ropp, (Rabs_pos_eq isp) by (unfold isp; lra).
    rewrite Rabs_pos_eq by (left; apply Rinv_0_lt_compat; lra).
    apply Rle_trans with (isp * / 2500000000000000).
    + apply Rmult_le_compat_l; [unfold isp; lra |]. apply Rinv_le_contravar; lra.
    + unfold isp. lra.
  - intros t Ht. apply Rabs_diff1; [| apply (g_bounds g Hg); lra].
    assert (Hi : 0 < ispi < 1) by (unfold ispi; lra). split.
    + apply Rmult_le_pos; [lra | left; apply Rinv_0_lt_compat; lra].
    + apply (Rmult_le_reg_r t); [lra |]. replace (ispi / t * t) with ispi by (field; lra). lra.
Qed.

(** ** x <= 50 *)
Definition piece (k : nat) (x : R) : R := peval (zrow k) (800 / (4 + x) - (2 * INR k + 1)) / IZR big.

Definition piece_res (k : nat) (x : R) : R :=
  peval (residual (Z.of_nat k) (zrow k)) (800 / (4 + x) - (2 * INR k + 1)) / (1600 * (400 / (4 + x)) * IZR big).

Lemma isp_over : isp = IZR isp_z / IZR big.
Proof.
  unfold isp, isp_z, big. rewrite mult_IZR.
  replace (IZR (10 ^ 40)) with (IZR (10 ^ 29) * IZR (10 ^ 11)) by (rewrite <- mult_IZR; reflexivity).
  assert (H : 0 < IZR (10 ^ 11)) by (apply IZR_lt; reflexivity).
  assert (H2 : 0 < IZR (10 ^ 29)) by (apply IZR_lt; reflexivity).
  replace (IZR 56418958354775628694807945156 * IZR (10 ^ 11) / (IZR (10 ^ 29) * IZR (10 ^ 11)))
    with (IZR 56418958354775628694807945156 / IZR (10 ^ 29)) by (field; lra).
  change (10 ^ 29)%Z with 100000000000000000000000000000%Z. lra.
Qed.

Lemma piece_derive : forall k x, 0 <= x ->
  is_derive (piece k) x (2 * x * piece k x - 2 * isp + piece_res k x).
Proof.
  intros k x Hx. pose proof big_pos as HB. unfold piece_res, piece. rewrite isp_over.
  set (p := zrow k). set (m := 2 * INR k + 1).
  apply is_derive_Reals.
  assert (HT : derivable_pt_lim (fun u => 800 / (4 + u) - m) x (- (800 / ((4 + x) * (4 + x))))).
  { apply is_derive_Reals. auto_derive; [lra | field; lra]. }
  assert (HC : derivable_pt_lim (fun u => peval p (800 / (4 + u) - m)) x
                 (peval (pderiv p) (800 / (4 + x) - m) * (- (800 / ((4 + x) * (4 + x)))))).
  { apply (derivable_pt_lim_comp (fun u => 800 / (4 + u) - m) (peval p)); [exact HT |].
    apply is_derive_Reals, peval_derive. }
  assert (HS : derivable_pt_lim (fun u => peval p (800 / (4 + u) - m) / IZR big) x
                 (peval (pderiv p) (800 / (4 + x) - m) * (- (800 / ((4 + x) * (4 + x)))) / IZR big)).
  { apply (derivable_pt_lim_ext (fun u => / IZR big * peval p (800 / (4 + u) - m))).
    - intros; unfold Rdiv; ring.
    - replace (peval (pderiv p) (800 / (4 + x) - m) * - (800 / ((4 + x) * (4 + x))) / IZR big)
        with (/ IZR big * (peval (pderiv p) (800 / (4 + x) - m) * - (800 / ((4 + x) * (4 + x))))) by (unfold Rdiv; ring).
      apply derivable_pt_lim_scal. exact HC. }
  match goal with |- derivable_pt_lim _ _ ?v => replace v with
    (peval (pderiv p) (800 / (4 + x) - m) * (- (800 / ((4 + x) * (4 + x)))) / IZR big) end; [exact HS |].
  unfold residual, upoly. rewrite !peval_padd, !peval_pscale, !peval_pmul, peval_padd, peval_pscale.
  cbn [peval]. rewrite plus_IZR, !mult_IZR, <- INR_IZR_INZ. fold m.
  set (A := peval p (800 / (4 + x) - m)). set (B := peval (pderiv p) (800 / (4 + x) - m)).
  replace (m + (800 / (4 + x) - m) * (1 + (800 / (4 + x) - m) * 0)) with (800 / (4 + x)) by (field; lra).
  field. lra.
Qed.

Definition x7 : R := 400 / 7 - 4.

Definition good (k : nat) (D : Z) : Prop := forall x, 400 / INR (S k) - 4 <= x <= 400 / INR k - 4 ->
  Rabs (piece k x - g x) <= IZR D / IZR big + Rabs kap * (x7 - x).

Lemma piece_bound : forall k X D0, (1 <= k <= 99)%nat -> X = 400 / INR k - 4 ->
  Rabs (piece k X - g X) <= IZR D0 / IZR big + Rabs kap * (x7 - X) ->
  good k (D0 + res_bound (Z.of_nat k) (zrow k)).
Proof.
  intros k X D0 Hk HX H0 x Hx. pose proof big_pos as HB.
  assert (Hk1 : 1 <= INR k <= 99).
  { split; [change 1 with (INR 1); apply le_INR; lia | replace 99 with (INR 99) by (rewrite INR_IZR_INZ; reflexivity); apply le_INR; lia]. }
  rewrite S_INR in Hx. rewrite <- HX in Hx.
  assert (Hx0 : 0 <= x).
  { assert (4 <= 400 / (INR k + 1)); [| lra].
    apply (Rmult_le_reg_r (INR k + 1)); [lra |]. replace (400 / (INR k + 1) * (INR k + 1)) with 400 by (field; lra). lra. }
  set (N := norm1 (residual (Z.of_nat k) (zrow k))).
  assert (HN0 : 0 <= IZR N) by (apply IZR_le, norm1_nonneg).
  assert (HD : Rabs (piece k x - g x) <= Rabs (piece k X - g X) + (IZR N / (1600 * INR k * IZR big) + Rabs kap) * (X - x)).
  { apply (decay (fun u => piece k u - g u) (fun u => piece_res k u + kap)); [lra | |].
    - intros t Ht. apply (diff_derive (piece k) (piece_res k)). apply piece_derive. lra.
    - intros t Ht. apply Rle_trans with (1 := Rabs_triang _ _). apply Rplus_le_compat_r.
      assert (Hy : INR k <= 400 / (4 + t) <= INR k + 1).
      { split.
        - apply (Rmult_le_reg_r (4 + t)); [lra |]. replace (400 / (4 + t) * (4 + t)) with 400 by (field; lra).
          assert (4 + t <= 400 / INR k) by lra.
          apply Rle_trans with (INR k * (400 / INR k)); [apply Rmult_le_compat_l; lra |].
          right. field. lra.
        - apply (Rmult_le_reg_r (4 + t)); [lra |]. replace (400 / (4 + t) * (4 + t)) with 400 by (field; lra).
          assert (400 / (INR k + 1) <= 4 + t) by lra.
          apply Rle_trans with ((INR k + 1) * (400 / (INR k + 1))); [right; field; lra |].
          apply Rmult_le_compat_l; lra. }
      unfold piece_res. set (y := 400 / (4 + t)) in *.
      replace (800 / (4 + t)) with (2 * y) by (unfold y; field; lra).
      assert (HT : Rabs (2 * y - (2 * INR k + 1)) <= 1) by (apply Rabs_le; lra).
      pose proof (peval_norm (residual (Z.of_nat k) (zrow k)) _ HT) as HP. fold N in HP.
      unfold Rdiv. rewrite Rabs_mult.
      assert (Hden : 0 < 1600 * y * IZR big) by (apply Rmult_lt_0_compat; lra).
      rewrite (Rabs_pos_eq (/ (1600 * y * IZR big))) by (left; apply Rinv_0_lt_compat; assumption).
      apply Rmult_le_compat; [apply Rabs_pos | left; apply Rinv_0_lt_compat; assumption | assumption |].
      apply Rinv_le_contravar; [apply Rmult_lt_0_compat; lra |].
      apply Rmult_le_compat_r; lra. }
  assert (HW : X - x <= 400 / (INR k * (INR k + 1))).
  { replace (400 / (INR k * (INR k + 1))) with (400 / INR k - 400 / (INR k + 1)) by (field; lra). lra. }
  assert (HRB : IZR N / (1600 * INR k * IZR big) * (X - x) <= IZR (res_bound (Z.of_nat k) (zrow k)) / IZR big).
  { apply Rle_trans with (IZR N / (1600 * INR k * IZR big) * (400 / (INR k * (INR k + 1)))).
    - apply Rmult_le_compat_l; [| assumption].
      apply Rmult_le_pos; [assumption | left; apply Rinv_0_lt_compat; apply Rmult_lt_0_compat; lra].
    - replace (IZR N / (1600 * INR k * IZR big) * (400 / (INR k * (INR k + 1))))
        with (IZR N / (4 * INR k * INR k * (INR k + 1)) / IZR big) by (field; lra).
      apply Rmult_le_compat_r; [left; apply Rinv_0_lt_compat; assumption |].
      unfold res_bound. fold N. set (q := (4 * Z.of_nat k * Z.of_nat k * (Z.of_nat k + 1))%Z).
      assert (Hq : 4 * INR k * INR k * (INR k + 1) = IZR q).
      { unfold q. rewrite !mult_IZR, plus_IZR, <- INR_IZR_INZ. reflexivity. }
      assert (Hq0 : (0 < q)%Z) by (unfold q; nia). rewrite Hq.
      apply (Rmult_le_reg_r (IZR q)); [apply IZR_lt; assumption |].
      replace (IZR N / IZR q * IZR q) with (IZR N) by (field; apply IZR_neq; lia).
      rewrite <- mult_IZR. apply IZR_le.
      pose proof (Z.div_mod N q ltac:(lia)). pose proof (Z.mod_pos_bound N q Hq0). nia. }
  rewrite plus_IZR. unfold Rdiv at 1. rewrite Rmult_plus_distr_r. fold (IZR D0 / IZR big).
  fold (IZR (res_bound (Z.of_nat k) (zrow k)) / IZR big). lra.
Qed.

Lemma piece_left : forall k, (1 <= k)%nat -> piece k (400 / INR (S k) - 4) = IZR (zeval (zrow k) 1) / IZR big.
Proof.
  intros k Hk. unfold piece. rewrite <- peval_zeval. do 2 f_equal.
  rewrite S_INR. pose proof (pos_INR k). field. lra.
Qed.

Lemma piece_right : forall k, (1 <= k)%nat -> piece k (400 / INR k - 4) = IZR (zeval (zrow k) (-1)) / IZR big.
Proof.
  intros k Hk. unfold piece. rewrite <- peval_zeval. do 2 f_equal.
  assert (1 <= INR k) by (change 1 with (INR 1); apply le_INR; lia). change (IZR (-1)) with (- (1)). field. lra.
Qed.

Lemma good_step : forall k D, (1 <= k <= 98)%nat -> good k D ->
  good (S k) (D + jump (zrow k) (zrow (S k)) + res_bound (Z.of_nat (S k)) (zrow (S k))).
Proof.
  intros k D Hk HG. pose proof big_pos as HB.
  assert (1 <= INR k) by (change 1 with (INR 1); apply le_INR; lia).
  apply (piece_bound (S k) (400 / INR (S k) - 4)); [lia | reflexivity |].
  assert (HX : 400 / INR (S k) - 4 <= 400 / INR k - 4).
  { rewrite S_INR. apply Rplus_le_compat_r. apply Rmult_le_compat_l; [lra |]. apply Rinv_le_contravar; lra. }
  pose proof (HG (400 / INR (S k) - 4) (conj (Rle_refl _) HX)) as H1.
  rewrite piece_left in H1 by lia. rewrite piece_right by lia.
  set (X := 400 / INR (S k) - 4) in *.
  assert (HJ : Rabs (IZR (zeval (zrow (S k)) (-1)) / IZR big - IZR (zeval (zrow k) 1) / IZR big) =
               IZR (jump (zrow k) (zrow (S k))) / IZR big).
  { unfold jump. rewrite abs_IZR, minus_IZR. rewrite <- (Rabs_pos_eq (IZR big)) at 3 by lra.
    rewrite <- Rabs_div by lra. f_equal. unfold Rdiv. ring. }
  replace (IZR (zeval (zrow (S k)) (-1)) / IZR big - g X) with
    ((IZR (zeval (zrow (S k)) (-1)) / IZR big - IZR (zeval (zrow k) 1) / IZR big) + (IZR (zeval (zrow k) 1) / IZR big - g X))
    by ring.
  apply Rle_trans with (1 := Rabs_triang _ _). rewrite HJ.
  rewrite plus_IZR. unfold Rdiv at 3. rewrite Rmult_plus_distr_r. unfold Rdiv in *. lra.
Qed.

Lemma good_weaken : forall k D D', (D <= D')%Z -> good k D -> good k D'.
Proof.
  intros k D D' H HG x Hx. pose proof big_pos. apply Rle_trans with (1 := HG x Hx). apply Rplus_le_compat_r.
  apply Rmult_le_compat_r; [left; apply Rinv_0_lt_compat; assumption | apply IZR_le; assumption].
Qed.

Lemma good_chain : forall n k D, (1 <= k)%nat -> (k + n <= 99)%nat -> good k D ->
  forall j, (k <= j <= k + n)%nat -> good j (chain n k D).
Proof.
  induction n as [| n IH]; intros k D Hk Hn HG j Hj.
  - replace j with k by lia. exact HG.
  - destruct (Nat.eq_dec j k) as [-> | E].
    + apply (good_weaken k D); [apply chain_mono | exact HG].
    + cbn [chain]. apply IH; [lia | lia | apply good_step; [lia | exact HG] | lia].
Qed.

Lemma good_first : good 7 D7.
Proof.
  unfold D7. change 7%Z with (Z.of_nat 7). pose proof big_pos as HB.
  apply (piece_bound 7 (400 / INR 7 - 4)); [lia | reflexivity |].
  rewrite piece_right by lia.
  assert (E7 : 400 / INR 7 - 4 = x7) by (unfold x7; rewrite INR_IZR_INZ; reflexivity).
  rewrite E7, Rminus_eq_0, Rmult_0_r, Rplus_0_r.
  replace (IZR (zeval (zrow 7) (-1)) / IZR big - g x7)
    with ((IZR (zeval (zrow 7) (-1)) / IZR big - tail5 x7) + (tail5 x7 - g x7)) by ring.
  apply Rle_trans with (1 := Rabs_triang _ _).
  pose proof (tail5_close x7 ltac:(unfold x7; lra)) as HT.
  assert (HP : IZR (10 ^ 23) / IZR big = 0.00000000000000001).
  { change (10 ^ 23)%Z with 100000000000000000000000%Z. unfold big.
    change (10 ^ 40)%Z with 10000000000000000000000000000000000000000%Z. lra. }
  rewrite HP.
  assert (HA : Rabs (IZR (zeval (zrow 7) (-1)) / IZR big - tail5 x7) <= 0.000000000000000001); [| lra].
  set (v := zeval (zrow 7) (-1)). vm_compute in v. unfold v, tail5, x7, big, ispi.
  change (10 ^ 40)%Z with 10000000000000000000000000000000000000000%Z.
  apply Rabs_le. split; lra.
Qed.
End Accuracy.
