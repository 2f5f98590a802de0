(** Proofs about the Voigt profile: every evaluation ends, within the table. *)
From Coq Require Import Reals ZArith Lra Lia.
From Coquelicot Require Import Coquelicot.
From Coq Require Import List.
From Flocq Require Import Core.Raux.
From Verif Require Import FaddTable FaddModel FaddSpec FaddProofs.
Import ListNotations.
Local Open Scope R_scope.

Lemma eps_pos : 0 < eps.
Proof. unfold eps. apply Rinv_0_lt_compat. lra. Qed.

Lemma a2_pos : 0 < a2_.
Proof. unfold a2_. lra. Qed.

Lemma a_pos : 0 < a_.
Proof. unfold a_. lra. Qed.

Lemma lit_nonneg : forall p, (0 <= fst p)%Z -> 0 <= lit p.
Proof.
  intros [m e] H. unfold lit. cbn [fst snd] in *. apply Rmult_le_pos; [apply IZR_le; assumption |].
  apply powerRZ_le. lra.
Qed.

Lemma lit_pos : forall p, (0 < fst p)%Z -> 0 < lit p.
Proof.
  intros [m e] H. unfold lit. cbn [fst snd] in *. apply Rmult_lt_0_compat; [apply IZR_lt; assumption |].
  apply powerRZ_lt. lra.
Qed.

Lemma lit_zero : forall p, fst p = 0%Z -> lit p = 0.
Proof. intros [m e] H. unfold lit. cbn [fst snd] in *. subst. ring. Qed.

(** A table which starts with a positive entry or follows one, and ends with a zero. *)
Fixpoint ends_zero (tab : list (Z * Z)) : Prop :=
  match tab with
  | [] => False
  | [p] => fst p = 0%Z
  | p :: tab' => (0 <= fst p)%Z /\ ends_zero tab'
  end.

Lemma ends_zero_head : forall p tab, ends_zero (p :: tab) -> (0 <= fst p)%Z.
Proof. intros p [| q tab] H; cbn in H; [rewrite H; lia | apply H]. Qed.

Lemma den_pos : forall n y, (1 <= n)%nat -> 0 < a2_ * (INR n * INR n) + y * y.
Proof.
  intros n y Hn. apply le_INR in Hn. change (INR 1) with 1 in Hn.
  assert (1 <= INR n * INR n) by nra. pose proof a2_pos. nra.
Qed.

Lemma coef_nonneg : forall p e n y, (0 <= fst p)%Z -> 0 < e -> (1 <= n)%nat ->
  0 <= lit p * e / (a2_ * (INR n * INR n) + y * y).
Proof.
  intros. pose proof (den_pos n y H1). apply Rmult_le_pos; [| left; apply Rinv_0_lt_compat; assumption].
  apply Rmult_le_pos; [apply lit_nonneg; assumption | lra].
Qed.

Lemma small_loop_ends : forall x y e p2 m2 tab n p m s,
  ends_zero tab -> 0 < e -> 0 < p2 -> 0 < p -> (1 <= n)%nat -> 0 < s3 s ->
  exists s', small_loop x y e p2 m2 tab n p m s = Some s'.
Proof.
  intros x y e p2 m2. induction tab as [| q tab IH]; intros n p m s HT He Hp2 Hp Hn Hs; [contradiction |].
  cbn [small_loop s3].
  pose proof (ends_zero_head _ _ HT) as Hq.
  pose proof (coef_nonneg q e n y Hq He Hn) as Hc.
  set (co := lit q * e / (a2_ * (INR n * INR n) + y * y)) in *.
  assert (Hpp : 0 < p * p2) by (apply Rmult_lt_0_compat; assumption).
  destruct (Rlt_dec (co * (p * p2)) (eps * (s3 s + co * (p * p2)))) as [Hl | Hl]; [eexists; reflexivity |].
  destruct tab as [| q' tab].
  - exfalso. apply Hl. cbn in HT. unfold co. rewrite (lit_zero _ HT).
    replace (0 * e / (a2_ * (INR n * INR n) + y * y) * (p * p2)) with 0 by (unfold Rdiv; ring).
    pose proof eps_pos. nra.
  - apply IH; [apply HT | assumption | assumption | assumption | lia |]. cbn [s3]. nra.
Qed.

Lemma mid_loop_ends : forall y e p2 m2 tab n p m s,
  ends_zero tab -> 0 < e -> 0 < p2 -> 0 < p -> (1 <= n)%nat -> 0 < s5 s ->
  exists s', mid_loop y e p2 m2 tab n p m s = Some s'.
Proof.
  intros y e p2 m2. induction tab as [| q tab IH]; intros n p m s HT He Hp2 Hp Hn Hs; [contradiction |].
  cbn [mid_loop s5].
  pose proof (ends_zero_head _ _ HT) as Hq.
  pose proof (coef_nonneg q e n y Hq He Hn) as Hc.
  set (co := lit q * e / (a2_ * (INR n * INR n) + y * y)) in *.
  assert (Hpp : 0 < p * p2) by (apply Rmult_lt_0_compat; assumption).
  assert (Han : 0 < a_ * INR n) by (apply Rmult_lt_0_compat; [apply a_pos | apply lt_0_INR; lia]).
  assert (H2 : 0 <= co * (p * p2) * (a_ * INR n)) by (apply Rmult_le_pos; [apply Rmult_le_pos; lra | lra]).
  destruct (Rlt_dec (co * (p * p2) * (a_ * INR n)) (eps * (s5 s + co * (p * p2) * (a_ * INR n)))) as [Hl | Hl];
    [eexists; reflexivity |].
  destruct tab as [| q' tab].
  - exfalso. apply Hl. cbn in HT. unfold co. rewrite (lit_zero _ HT).
    replace (0 * e / (a2_ * (INR n * INR n) + y * y) * (p * p2) * (a_ * INR n)) with 0 by (unfold Rdiv; ring).
    pose proof eps_pos. nra.
  - apply IH; [apply HT | assumption | assumption | assumption | lia |]. cbn [s5]. lra.
Qed.

Lemma table_shape : exists p tab, expa2n2 = p :: tab /\ (0 < fst p)%Z /\ ends_zero tab.
Proof.
  eexists. eexists. split; [reflexivity |]. split; [reflexivity |]. cbn [ends_zero fst].
  repeat (split; [discriminate |]). reflexivity.
Qed.

Lemma small_loop_start : forall x y e p2 m2, 0 < e -> 0 < p2 ->
  exists s', small_loop x y e p2 m2 expa2n2 1 1 1 zero_sums = Some s'.
Proof.
  intros x y e p2 m2 He Hp2. destruct table_shape as [q [tab [-> [Hq HT]]]]. cbn [small_loop].
  match goal with |- context [Rlt_dec ?u ?v] => destruct (Rlt_dec u v) as [Hl | Hl] end; [eexists; reflexivity |].
  apply small_loop_ends; [assumption | assumption | assumption | lra | lia |].
  cbn [s3 zero_sums]. rewrite Rplus_0_l.
  apply Rmult_lt_0_compat; [| lra].
  apply Rdiv_lt_0_compat; [apply Rmult_lt_0_compat; [apply lit_pos; assumption | assumption] | apply den_pos; lia].
Qed.

Lemma mid_loop_start : forall y e p2 m2, 0 < e -> 0 < p2 ->
  exists s', mid_loop y e p2 m2 expa2n2 1 1 1 zero_sums = Some s'.
Proof.
  intros y e p2 m2 He Hp2. destruct table_shape as [q [tab [-> [Hq HT]]]]. cbn [mid_loop].
  match goal with |- context [Rlt_dec ?u ?v] => destruct (Rlt_dec u v) as [Hl | Hl] end; [eexists; reflexivity |].
  apply mid_loop_ends; [assumption | assumption | assumption | lra | lia |].
  cbn [s5 zero_sums]. rewrite Rplus_0_l.
  apply Rmult_lt_0_compat; [| apply Rmult_lt_0_compat; [apply a_pos | apply lt_0_INR; lia]].
  apply Rmult_lt_0_compat; [| lra].
  apply Rdiv_lt_0_compat; [apply Rmult_lt_0_compat; [apply lit_pos; assumption | assumption] | apply den_pos; lia].
Qed.

(** ** The sums around n0 *)
Lemma exp_nat : forall n x, exp (INR n * x) = exp x ^ n.
Proof.
  induction n as [| n IH]; intros x.
  - cbn [INR pow]. rewrite Rmult_0_l. apply exp_0.
  - rewrite S_INR, Rmult_plus_distr_r, Rmult_1_l, exp_plus, IH. cbn [pow]. ring.
Qed.

(** exp(-48) is tiny. *)
Lemma exp_tiny : exp (- (48)) * 40000000000000000000 < 1.
Proof.
  assert (H1 : 9 / 8 < exp (1 / 8)) by (pose proof (exp_ineq1 (1 / 8)); lra).
  assert (H2 : (9 / 8) ^ 384 <= exp 48).
  { replace 48 with (INR 384 * (1 / 8)).
    2: { rewrite INR_IZR_INZ. change (Z.of_nat 384) with 384%Z. lra. }
    rewrite exp_nat. apply pow_incr. lra. }
  assert (H3 : (9 / 8) ^ 384 = (9 / 8) ^ 48 * (9 / 8) ^ 48 * ((9 / 8) ^ 48 * (9 / 8) ^ 48) *
                               ((9 / 8) ^ 48 * (9 / 8) ^ 48 * ((9 / 8) ^ 48 * (9 / 8) ^ 48))).
  { rewrite <- !pow_add. f_equal. }
  assert (H4 : 285 <= (9 / 8) ^ 48).
  { replace ((9 / 8) ^ 48) with (IZR (9 ^ 48) / IZR (8 ^ 48)).
    - assert (HZ : (0 < 8 ^ 48)%Z) by reflexivity. apply IZR_lt in HZ.
      apply (Rmult_le_reg_r (IZR (8 ^ 48))); [assumption |].
      unfold Rdiv. rewrite Rmult_assoc, Rinv_l by lra. rewrite Rmult_1_r, <- mult_IZR. apply IZR_le.
      vm_compute. discriminate.
    - unfold Rdiv. rewrite Rpow_mult_distr, pow_inv by lra.
      rewrite (pow_IZR 9 48), (pow_IZR 8 48). do 2 f_equal. }
  set (q := (9 / 8) ^ 48) in *.
  assert (H5 : 285 * 285 <= q * q) by nra.
  assert (H6 : 285 * 285 * (285 * 285) <= q * q * (q * q)) by nra.
  set (r := q * q * (q * q)) in *.
  assert (H7 : (285 * 285 * (285 * 285)) * (285 * 285 * (285 * 285)) <= r * r).
  { apply Rmult_le_compat; lra. }
  rewrite exp_Ropp. assert (H8 : 40000000000000000000 < exp 48) by lra.
  apply (Rmult_lt_reg_r (exp 48)); [apply exp_pos |].
  replace (/ exp 48 * 40000000000000000000 * exp 48) with 40000000000000000000; [lra |].
  field. apply Rgt_not_eq, exp_pos.
Qed.

Lemma n0_range : forall x, 10 <= x <= 28 -> let n0 := Zfloor (x / a_ + 0.5) in
  (19 <= n0 <= 54)%Z /\ - a_ / 2 < a_ * IZR n0 - x <= a_ / 2.
Proof.
  intros x Hx n0. pose proof (Zfloor_lb (x / a_ + 0.5)) as H1. pose proof (Zfloor_ub (x / a_ + 0.5)) as H2.
  fold n0 in H1, H2. pose proof a_pos as Ha.
  assert (E : a_ * (x / a_) = x) by (field; lra).
  split.
  - split.
    + apply Zlt_succ_le. apply lt_IZR. rewrite succ_IZR.
      assert (18.5 < x / a_). { apply (Rmult_lt_reg_l a_); [assumption |]. rewrite E. unfold a_. lra. } lra.
    + apply Zlt_succ_le. apply lt_IZR. change (IZR (Z.succ 54)) with 55.
      assert (x / a_ < 54.4). { apply (Rmult_lt_reg_l a_); [assumption |]. rewrite E. unfold a_. lra. } lra.
  - set (q := x / a_) in *. rewrite <- E. nra.
Qed.

(** One turn of the loop over both sides: its term is not negative, and at the fourteenth turn it is tiny. *)
Lemma gauss_trick : forall dx d,
  exp (- sqr (a_ * d + dx)) * exp (4 * a_ * dx * d) = exp (- sqr (a_ * d - dx)).
Proof. intros. rewrite <- exp_plus. f_equal. unfold sqr. ring. Qed.

Lemma exp_mono : forall u v, u <= v -> exp u <= exp v.
Proof. intros u v [H | ->]; [left; apply exp_increasing; assumption | lra]. Qed.

Lemma quot_le : forall b n y, 0 <= b -> 1 <= n -> n * (b / (a2_ * (n * n) + y * y)) <= b / (a2_ * n).
Proof.
  intros b n y Hb Hn. pose proof a2_pos.
  assert (0 < a2_ * n) by nra.
  apply (Rmult_le_reg_r (a2_ * n)); [assumption |].
  replace (b / (a2_ * n) * (a2_ * n)) with b by (field; nra).
  assert (0 < a2_ * (n * n) + y * y) by nra.
  apply (Rmult_le_reg_r (a2_ * (n * n) + y * y)); [assumption |].
  replace (n * (b / (a2_ * (n * n) + y * y)) * (a2_ * n) * (a2_ * (n * n) + y * y)) with (b * (a2_ * (n * n)))
    by (field; lra).
  assert (0 <= b * (y * y)) by (apply Rmult_le_pos; nra). nra.
Qed.

Lemma last_term : forall n0 dx y, (19 <= n0 <= 54)%Z -> - a_ / 2 < dx <= a_ / 2 -> Rabs y <= 1 ->
  let np := IZR (n0 + 14) in let nm := IZR (n0 - 14) in
  let tp0 := exp (- sqr (a_ * IZR 14 + dx)) in
  a_ * (np * (tp0 / (a2_ * (np * np) + y * y)) + nm * (tp0 * exp (4 * a_ * dx * 14) / (a2_ * (nm * nm) + y * y))) <
  eps * (a_ * IZR n0 * (exp (- dx * dx) / (a2_ * (IZR n0 * IZR n0) + y * y))).
Proof.
  intros n0 dx y Hn Hdx Hy np nm tp0.
  unfold tp0. rewrite gauss_trick.
  pose proof a_pos as Ha. pose proof a2_pos as Ha2.
  assert (Hnp : 33 <= np) by (apply IZR_le; lia).
  assert (Hnm : 5 <= nm) by (apply IZR_le; lia).
  assert (Hn0 : 19 <= IZR n0 <= 54) by (split; apply IZR_le; lia).
  set (B := exp (- (48))).
  assert (HB : 0 < B) by apply exp_pos.
  assert (Hb1 : exp (- sqr (a_ * IZR 14 + dx)) <= B).
  { apply exp_mono. unfold sqr, a_ in *. assert (6.99 <= 0.518321480430085929872 * 14 + dx) by lra. nra. }
  assert (Hb2 : exp (- sqr (a_ * IZR 14 - dx)) <= B).
  { apply exp_mono. unfold sqr, a_ in *. assert (6.99 <= 0.518321480430085929872 * 14 - dx) by lra. nra. }
  pose proof (quot_le _ np y (Rlt_le _ _ (exp_pos (- sqr (a_ * IZR 14 + dx)))) ltac:(lra)) as Q1.
  pose proof (quot_le _ nm y (Rlt_le _ _ (exp_pos (- sqr (a_ * IZR 14 - dx)))) ltac:(lra)) as Q2.
  assert (R1 : exp (- sqr (a_ * IZR 14 + dx)) / (a2_ * np) <= B).
  { apply (Rmult_le_reg_r (a2_ * np)); [nra |].
    replace (exp (- sqr (a_ * IZR 14 + dx)) / (a2_ * np) * (a2_ * np)) with (exp (- sqr (a_ * IZR 14 + dx)))
      by (field; nra).
    assert (1 <= a2_ * np) by (unfold a2_; lra). nra. }
  assert (R2 : exp (- sqr (a_ * IZR 14 - dx)) / (a2_ * nm) <= B).
  { apply (Rmult_le_reg_r (a2_ * nm)); [nra |].
    replace (exp (- sqr (a_ * IZR 14 - dx)) / (a2_ * nm) * (a2_ * nm)) with (exp (- sqr (a_ * IZR 14 - dx)))
      by (field; nra).
    assert (1 <= a2_ * nm) by (unfold a2_; lra). nra. }
  assert (Hdx2 : dx * dx <= 0.1).
  { unfold a_ in *. assert (- 0.3 <= dx <= 0.3) by lra. nra. }
  assert (He : 0.9 <= exp (- dx * dx)).
  { destruct (Req_dec dx 0) as [-> | Hd]; [rewrite Rmult_0_r, exp_0; lra |].
    assert (- dx * dx <> 0) by nra. pose proof (exp_ineq1 (- dx * dx) H). lra. }
  assert (Hyy : y * y <= 1). { apply Rabs_le_between in Hy. nra. }
  assert (HD : 0 < a2_ * (IZR n0 * IZR n0) + y * y).
  { apply Rplus_lt_le_0_compat; [apply Rmult_lt_0_compat; nra | apply Rle_0_sqr]. }
  assert (R3 : 0.9 / 1000 <= IZR n0 * (exp (- dx * dx) / (a2_ * (IZR n0 * IZR n0) + y * y))).
  { apply (Rmult_le_reg_r (a2_ * (IZR n0 * IZR n0) + y * y)); [assumption |].
    replace (IZR n0 * (exp (- dx * dx) / (a2_ * (IZR n0 * IZR n0) + y * y)) * (a2_ * (IZR n0 * IZR n0) + y * y))
      with (IZR n0 * exp (- dx * dx)) by (field; lra).
    assert (HN2 : IZR n0 * IZR n0 <= 54 * 54) by nra.
    assert (HD2 : a2_ * (IZR n0 * IZR n0) + y * y <= 1000) by (unfold a2_ in *; lra).
    assert (19 * 0.9 <= IZR n0 * exp (- dx * dx)) by (apply Rmult_le_compat; lra). lra. }
  set (X := IZR n0 * (exp (- dx * dx) / (a2_ * (IZR n0 * IZR n0) + y * y))) in *.
  replace (eps * (a_ * IZR n0 * (exp (- dx * dx) / (a2_ * (IZR n0 * IZR n0) + y * y)))) with (a_ * (eps * X))
    by (unfold X; ring).
  apply Rmult_lt_compat_l; [assumption |].
  assert (HE : 0.0000000000000002 <= eps).
  { unfold eps. apply (Rmult_le_reg_r 4503599627370496); [lra |]. rewrite Rinv_l by lra. lra. }
  assert (HX : 0.0000000000000002 * (0.9 / 1000) <= eps * X) by (apply Rmult_le_compat; lra).
  pose proof exp_tiny as HT. fold B in HT. lra.
Qed.

Lemma term_nonneg : forall b n y, 0 <= b -> 0 < n -> 0 <= n * (b / (a2_ * (n * n) + y * y)).
Proof.
  intros b n y Hb Hn. apply Rmult_le_pos; [lra |]. apply Rmult_le_pos; [assumption |].
  left. apply Rinv_0_lt_compat. apply Rplus_lt_le_0_compat; [| apply Rle_0_sqr].
  apply Rmult_lt_0_compat; [apply a2_pos | nra].
Qed.

Lemma both_loop_ends : forall n0 dx y s0, (19 <= n0 <= 54)%Z -> - a_ / 2 < dx <= a_ / 2 -> Rabs y <= 1 ->
  s0 = a_ * IZR n0 * (exp (- dx * dx) / (a2_ * (IZR n0 * IZR n0) + y * y)) ->
  forall k (left : nat) dn s, (dn = 14 - Z.of_nat k)%Z -> (1 <= dn)%Z -> Z.of_nat left = (n0 - dn)%Z -> s0 <= s5 s ->
  exists s', forall fuel,
    both_loop fuel left y dx (exp (4 * a_ * dx)) n0 dn (exp (4 * a_ * dx * IZR (dn - 1))) s = Some s'.
Proof.
  intros n0 dx y s0 Hn Hdx Hy Hs0. induction k as [| k IH]; intros left dn s Hdn H1 Hl Hs.
  - assert (Hd : dn = 14%Z) by lia. clear Hdn. subst dn.
    destruct left as [| l]; [lia |]. cbn [both_loop s5].
    rewrite <- exp_plus. replace (4 * a_ * dx * IZR (14 - 1) + 4 * a_ * dx) with (4 * a_ * dx * 14)
      by (change (IZR (14 - 1)) with 13; ring).
    pose proof (last_term n0 dx y Hn Hdx Hy) as HL. cbv zeta in HL. rewrite <- Hs0 in HL.
    match goal with |- context [Rlt_dec ?t (eps * (s5 s + ?t))] => change (t < eps * s0) in HL; set (T := t) in * end.
    assert (HT : 0 <= T).
    { unfold T. pose proof a_pos. pose proof a2_pos.
      assert (0 < IZR (n0 + 14)) by (apply IZR_lt; lia). assert (0 < IZR (n0 - 14)) by (apply IZR_lt; lia).
      apply Rmult_le_pos; [lra |].
      apply Rplus_le_le_0_compat; apply term_nonneg; try assumption;
        repeat apply Rmult_le_pos; left; apply exp_pos. }
    destruct (Rlt_dec T (eps * (s5 s + T))) as [_ | HN]; [eexists; intros; reflexivity |].
    exfalso. apply HN. pose proof eps_pos. nra.
  - destruct left as [| l]; [lia |]. cbn [both_loop s5].
    match goal with |- context [Rlt_dec ?t (eps * (s5 s + ?t))] => set (T := t) end.
    assert (HT : 0 <= T).
    { unfold T. pose proof a_pos. pose proof a2_pos.
      assert (0 < IZR (n0 + dn)) by (apply IZR_lt; lia). assert (0 < IZR (n0 - dn)) by (apply IZR_lt; lia).
      apply Rmult_le_pos; [lra |].
      apply Rplus_le_le_0_compat; apply term_nonneg; try assumption;
        repeat apply Rmult_le_pos; left; apply exp_pos. }
    destruct (Rlt_dec T (eps * (s5 s + T))) as [_ | HN]; [eexists; intros; reflexivity |].
    rewrite <- (exp_plus (4 * a_ * dx * IZR (dn - 1))).
    replace (4 * a_ * dx * IZR (dn - 1) + 4 * a_ * dx) with (4 * a_ * dx * IZR (dn + 1 - 1)).
    2: { replace (dn + 1 - 1)%Z with (dn - 1 + 1)%Z by lia. rewrite (plus_IZR (dn - 1)). ring. }
    apply IH; [lia | lia | lia |]. cbn [s5]. lra.
Qed.

(** ** Every evaluation ends *)
Lemma not_outer : forall x ya, ~ cf_region x ya -> 10 <= x -> x <= 28 /\ ya <= 0.0000000001 /\ ya <= 7.
Proof. unfold cf_region. intros x ya H Hx. lra. Qed.

Lemma erfcx_ends : forall y, - 26.7 <= y -> exists v, erfcx y = Some v.
Proof.
  intros y Hy. unfold erfcx. repeat match goal with |- context [if ?d then _ else _] => destruct d end;
    try (eexists; reflexivity). lra.
Qed.

Lemma ends_aux : forall w_im x y, x <> 0 \/ - 26.7 <= y -> exists v, forall fuel, w w_im fuel x y = Value v.
Proof.
  intros w_im x y Hy. unfold w.
  destruct (Req_EM_T x 0) as [Hx | Hx].
  { destruct (erfcx_ends y ltac:(lra)) as [v ->]. eexists; intros; reflexivity. }
  destruct (Req_EM_T y 0) as [_ | Hy0]; [eexists; intros; reflexivity |].
  destruct (cf_region_dec (Rabs x) (Rabs y)) as [HR | HR].
  { destruct (Rlt_dec y 0); eexists; intros; reflexivity. }
  pose proof (Rabs_pos x) as Hax. set (u := Rabs x) in *.
  destruct (Rlt_dec u 10) as [H10 | H10].
  - cbv zeta.
    assert (HM : forall s e, exists ret, mid_ret x u y e s = Some ret).
    { intros s e. unfold mid_ret. destruct (Rlt_dec (-6) y) as [H6 | H6].
      - destruct (erfcx_ends y ltac:(lra)) as [v ->]. eexists; reflexivity.
      - eexists; reflexivity. }
    destruct (Rlt_dec u 0.0005) as [Hs | Hs].
    + match goal with |- context [small_loop _ _ ?e ?p ?m _ _ _ _ _] =>
        destruct (small_loop_start u y e p m) as [s' ->] end.
      * assert (u * u <= 0.001) by nra. nra.
      * set (q := 1.036642960860171859744 * u). assert (0 <= q) by (unfold q; lra).
        assert (0 <= q * (0.5 + 0.166666666666666666667 * q)) by nra. nra.
      * match goal with |- context [mid_ret x u y ?e s'] => destruct (HM s' e) as [ret ->] end.
        eexists; intros; reflexivity.
    + match goal with |- context [mid_loop _ ?e ?p ?m _ _ _ _ _] =>
        destruct (mid_loop_start y e p m) as [s' ->] end; [apply exp_pos | apply exp_pos |].
      match goal with |- context [mid_ret x u y ?e s'] => destruct (HM s' e) as [ret ->] end.
      eexists; intros; reflexivity.
  - cbv zeta. destruct (not_outer u (Rabs y) HR ltac:(lra)) as [Hu [Hy1 _]].
    destruct (n0_range u ltac:(lra)) as [Hn Hdx].
    set (n0 := Zfloor (u / a_ + 0.5)) in *. set (dx := a_ * IZR n0 - u) in *.
    set (t0 := exp (- dx * dx) / (a2_ * (IZR n0 * IZR n0) + y * y)).
    destruct (both_loop_ends n0 dx y (a_ * IZR n0 * t0) Hn Hdx ltac:(lra) eq_refl 13 (Z.to_nat (n0 - 1)) 1
                {| s1 := 0; s2 := 0; s3 := t0; s4 := 0; s5 := a_ * IZR n0 * t0 |}) as [s' Hs']; try lia; try (cbn; lra).
    change (IZR (1 - 1)) with 0 in Hs'. rewrite Rmult_0_r, exp_0 in Hs'.
    eexists. intros fuel. rewrite Hs'. reflexivity.
Qed.
