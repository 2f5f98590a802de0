(** The accuracy of erfcx at every point, its sign, and the profile on the axes. *)
From Coq Require Import Reals ZArith Lra Lia.
From Coquelicot Require Import Coquelicot.
From Coq Require Import List.
From Flocq Require Import Core.Raux.
From Verif Require Import FaddTable FaddModel FaddSpec FaddProofs FaddProofs2 FaddProofs3 FaddProofs4 FaddProofs5 FaddProofs6.
Import ListNotations.
Local Open Scope R_scope.

Lemma y100_range : forall y, 0 <= y <= 50 -> 7 < 400 / (4 + y) <= 100.
Proof.
  intros y Hy. split.
  - apply (Rmult_lt_reg_r (4 + y)); [lra |]. replace (400 / (4 + y) * (4 + y)) with 400 by (field; lra). lra.
  - apply (Rmult_le_reg_r (4 + y)); [lra |]. replace (400 / (4 + y) * (4 + y)) with 400 by (field; lra). lra.
Qed.

(** erfcx_y100 is 1 at y = 0 and a piece elsewhere. *)
Lemma y100_cases : forall y, 0 <= y <= 50 ->
  (y = 0 /\ erfcx_y100 (400 / (4 + y)) = 1) \/
  exists k, (7 <= k <= 99)%nat /\ 400 / INR (S k) - 4 <= y <= 400 / INR k - 4 /\
            -1 <= 800 / (4 + y) - (2 * INR k + 1) <= 1 /\
            erfcx_y100 (400 / (4 + y)) = piece k y.
Proof.
  intros y Hy. pose proof (y100_range y Hy) as HR. unfold erfcx_y100.
  rewrite Ztrunc_floor by lra.
  pose proof (Zfloor_lb (400 / (4 + y))) as H1. pose proof (Zfloor_ub (400 / (4 + y))) as H2.
  set (z := Zfloor (400 / (4 + y))) in *.
  assert (Hz7 : (7 <= z)%Z) by (apply Zfloor_lub; lra).
  assert (Hz : (z <= 100)%Z) by (apply le_IZR; lra).
  assert (E400 : 400 / (4 + y) * (4 + y) = 400) by (field; lra).
  destruct (Z.eq_dec z 100) as [Ez | Ez].
  - left. rewrite Ez in *. split; [| reflexivity].
    assert (400 / (4 + y) = 100) by lra. rewrite H in E400. lra.
  - right. exists (Z.to_nat z).
    assert (EI : INR (Z.to_nat z) = IZR z) by (rewrite INR_IZR_INZ, Z2Nat.id by lia; reflexivity).
    split; [lia |]. rewrite S_INR, EI.
    assert (Hz1 : 7 <= IZR z) by (apply IZR_le; assumption).
    set (q := 400 / (4 + y)) in *.
    split; [split |].
    + assert (400 / (IZR z + 1) <= 4 + y); [| lra].
      apply (Rmult_le_reg_r (IZR z + 1)); [lra |]. replace (400 / (IZR z + 1) * (IZR z + 1)) with 400 by (field; lra). nra.
    + assert (4 + y <= 400 / IZR z); [| lra].
      apply (Rmult_le_reg_r (IZR z)); [lra |]. replace (400 / IZR z * IZR z) with 400 by (field; lra). nra.
    + assert (E8 : 800 / (4 + y) = 2 * q) by (unfold q; field; lra).
      split; [lra |].
      assert (HB : (Z.leb 0 z && Z.ltb z 100)%bool = true)
        by (apply andb_true_intro; split; [apply Z.leb_le | apply Z.ltb_lt]; lia).
      rewrite HB, horner_zrow. unfold piece. rewrite EI, plus_IZR, mult_IZR. rewrite E8. reflexivity.
Qed.

Lemma chain_real : forall g, is_erfcx g -> forall k x, (7 <= k <= 99)%nat ->
  400 / INR (S k) - 4 <= x <= 400 / INR k - 4 -> 0 <= x ->
  Rabs (piece k x - g x) + IZR (Z.abs (big - zeval (zrow 99) 1)) / IZR big <= 0.000000000001.
Proof.
  intros g Hg k x Hk Hx Hx0. pose proof big_pos as HB.
  pose proof (good_chain g Hg 92 7 D7 ltac:(lia) ltac:(lia) (good_first g Hg) k ltac:(lia) x Hx) as H.
  pose proof chain_value as HC. apply IZR_le in HC. rewrite plus_IZR in HC.
  pose proof kap_small as HK. set (kap := Rabs (2 / sqrt PI - 2 * isp)) in *.
  assert (HQ : IZR (chain 92 7 D7) / IZR big + IZR (Z.abs (big - zeval (zrow 99) 1)) / IZR big <= 0.0000000000009).
  { unfold Rdiv. rewrite <- Rmult_plus_distr_r. apply (Rmult_le_reg_r (IZR big)); [assumption |].
    rewrite Rmult_assoc, Rinv_l, Rmult_1_r by lra.
    apply Rle_trans with (1 := HC). unfold big.
    change (9 * 10 ^ 27)%Z with 9000000000000000000000000000%Z.
    change (10 ^ 40)%Z with 10000000000000000000000000000000000000000%Z. lra. }
  assert (HT : kap * (x7 - x) <= 0.0000000000000002 * 54).
  { unfold x7. assert (0 <= kap) by (unfold kap; apply Rabs_pos).
    assert (400 / 7 - 4 - x <= 54) by lra. nra. }
  lra.
Qed.

Lemma accuracy_aux : forall g, is_erfcx g -> forall y, 0 <= y ->
  exists v, erfcx y = Some v /\ Rabs (v - g y) <= 0.000000000001.
Proof.
  intros g Hg y Hy. unfold erfcx. destruct (Rle_dec 0 y) as [_ | E]; [| contradiction].
  destruct (Rlt_dec 50 y) as [H50 | H50].
  { destruct (Rlt_dec 50000000 y) as [Hb | Hb]; eexists; (split; [reflexivity |]).
    - pose proof (tail1_close g Hg y ltac:(lra)). lra.
    - pose proof (tail5_close g Hg y ltac:(lra)) as H. unfold tail5 in H. lra. }
  eexists; split; [reflexivity |].
  destruct (y100_cases y ltac:(lra)) as [[-> ->] | [k [Hk [Hx [_ ->]]]]].
  - pose proof big_pos as HB.
    assert (E100 : 400 / INR 100 - 4 = 0) by (rewrite INR_IZR_INZ; change (Z.of_nat 100) with 100%Z; lra).
    assert (E99 : 0 <= 400 / INR 99 - 4) by (rewrite INR_IZR_INZ; change (Z.of_nat 99) with 99%Z; lra).
    assert (Hrange : 400 / INR 100 - 4 <= 0 <= 400 / INR 99 - 4) by (split; [rewrite E100; apply Rle_refl | exact E99]).
    pose proof (chain_real g Hg 99 0 ltac:(lia) Hrange (Rle_refl 0)) as H.
    assert (EP : piece 99 0 = IZR (zeval (zrow 99) 1) / IZR big).
    { rewrite <- (piece_left 99) by lia. rewrite E100. reflexivity. }
    assert (HJ : Rabs (1 - piece 99 0) = IZR (Z.abs (big - zeval (zrow 99) 1)) / IZR big).
    { rewrite EP, abs_IZR, minus_IZR. rewrite <- (Rabs_pos_eq (IZR big)) at 3 by lra.
      rewrite <- Rabs_div by lra. f_equal. field. lra. }
    replace (1 - g 0) with ((1 - piece 99 0) + (piece 99 0 - g 0)) by ring.
    apply Rle_trans with (1 := Rabs_triang _ _). rewrite HJ. lra.
  - pose proof (chain_real g Hg k y Hk Hx Hy) as H. pose proof big_pos as HB.
    assert (0 <= IZR (Z.abs (big - zeval (zrow 99) 1)) / IZR big); [| lra].
    apply Rmult_le_pos; [apply IZR_le, Z.abs_nonneg | left; apply Rinv_0_lt_compat; assumption].
Qed.

(** ** The truth exists *)
Lemma E_le1 : forall t, E t <= 1.
Proof. intros. unfold E. rewrite <- exp_0. apply exp_mono. nra. Qed.

Lemma J_split : forall a b c, RInt E a c = RInt E a b + RInt E b c.
Proof. intros. symmetry. apply (RInt_Chasles E a b c); apply E_int. Qed.

Lemma J_mono : forall a b, a <= b -> RInt E 0 a <= RInt E 0 b.
Proof.
  intros a b H. rewrite (J_split 0 a b).
  assert (0 <= RInt E a b); [| lra]. apply RInt_ge_0; [assumption | apply E_int | intros; left; apply E_pos].
Qed.

Lemma J_bound : forall b, RInt E 0 b <= 2.
Proof.
  intros b. apply Rle_trans with (RInt E 0 (Rmax 1 b)); [apply J_mono, Rmax_r |].
  set (m := Rmax 1 b). assert (Hm : 1 <= m) by apply Rmax_l.
  rewrite (J_split 0 1 m).
  pose proof (int_tail 1 m ltac:(lra)) as [_ H1]. pose proof (E_le1 1).
  assert (H2 : RInt E 0 1 <= RInt (fun _ => 1) 0 1).
  { apply RInt_le; [lra | apply E_int | apply ex_RInt_const | intros; apply E_le1]. }
  rewrite RInt_const in H2. change (scal (1 - 0) 1) with ((1 - 0) * 1) in H2. lra.
Qed.

Lemma truth_exists : exists g, is_erfcx g.
Proof.
  set (P := fun v => exists b, v = RInt E 0 b).
  destruct (completeness P) as [S0 [HU HL]].
  - exists 2. intros v [b ->]. apply J_bound.
  - exists (RInt E 0 0). exists 0. reflexivity.
  - assert (HJ : is_lim (fun b => RInt E 0 b) p_infty S0).
    { apply is_lim_spec. intros eps'. destruct eps' as [e He].
      assert (HE : exists b0, S0 - e < RInt E 0 b0).
      { apply Classical_Prop.NNPP. intros HN.
        assert (HB : is_upper_bound P (S0 - e)).
        { intros v [b ->]. apply Rnot_lt_le. intros Hb. apply HN. exists b. exact Hb. }
        pose proof (HL _ HB). lra. }
      destruct HE as [b0 Hb0]. exists b0. intros b Hb. change (Rabs (RInt E 0 b - S0) < e).
      pose proof (J_mono b0 b ltac:(lra)). pose proof (HU (RInt E 0 b) (ex_intro _ b eq_refl)).
      apply Rabs_def1; lra. }
    exists (fun x => 2 / sqrt PI * exp (x * x) * (S0 - RInt E 0 x)). intros x.
    apply (is_lim_ext (fun b => 2 / sqrt PI * exp (x * x) * (RInt E 0 b - RInt E 0 x))).
    + intros b. f_equal. rewrite (J_split 0 x b). unfold E. ring.
    + apply (is_lim_scal_l _ (2 / sqrt PI * exp (x * x)) p_infty (S0 - RInt E 0 x)).
      apply (is_lim_minus' _ _ p_infty S0 (RInt E 0 x)); [exact HJ | apply is_lim_const].
Qed.

(** ** Signs *)
Definition row_pos (r : list Z) : bool :=
  match r with [] => false | c :: q => Z.ltb (norm1 q) c end.

Lemma rows_pos : forallb (fun k => row_pos (zrow k)) (seq 7 93) = true.
Proof. vm_compute. reflexivity. Qed.

Lemma piece_pos : forall k y, (7 <= k <= 99)%nat -> -1 <= 800 / (4 + y) - (2 * INR k + 1) <= 1 -> 0 < piece k y.
Proof.
  intros k y Hk Ht. unfold piece. apply Rdiv_lt_0_compat; [| apply big_pos].
  pose proof rows_pos as H. rewrite forallb_forall in H. specialize (H k).
  rewrite in_seq in H. specialize (H ltac:(lia)). unfold row_pos in H.
  destruct (zrow k) as [| c q]; [discriminate |]. apply Z.ltb_lt, IZR_lt in H. cbn [peval].
  set (t := 800 / (4 + y) - (2 * INR k + 1)) in *.
  pose proof (peval_norm q t ltac:(apply Rabs_le; lra)) as HN.
  assert (HA : Rabs (t * peval q t) <= IZR (norm1 q)).
  { rewrite Rabs_mult. assert (Rabs t <= 1) by (apply Rabs_le; lra). pose proof (Rabs_pos (peval q t)). nra. }
  apply Rabs_le_between in HA. lra.
Qed.

Lemma erfcx_positive : forall y, 0 <= y -> exists v, erfcx y = Some v /\ 0 < v.
Proof.
  intros y Hy. unfold erfcx. destruct (Rle_dec 0 y) as [_ | Ne]; [| contradiction].
  assert (Hi : 0 < ispi) by (unfold ispi; lra).
  destruct (Rlt_dec 50 y) as [H50 | H50].
  { destruct (Rlt_dec 50000000 y) as [Hb | Hb]; eexists; (split; [reflexivity |]).
    - apply Rdiv_lt_0_compat; lra.
    - destruct (tail5_den y ltac:(lra)) as [_ HD]. assert (0 < y * y) by nra.
      apply Rdiv_lt_0_compat; [| lra]. apply Rmult_lt_0_compat; [assumption | nra]. }
  eexists; split; [reflexivity |].
  destruct (y100_cases y ltac:(lra)) as [[-> ->] | [k [Hk [_ [Ht ->]]]]]; [lra |]. apply piece_pos; assumption.
Qed.

Lemma gauss_aux : forall w_im fuel x, profile w_im fuel x 0 = Some (exp (- (x * x))).
Proof.
  intros w_im fuel x. unfold profile, w. destruct (Req_EM_T x 0) as [-> | Hx].
  - unfold erfcx. destruct (Rle_dec 0 0) as [_ | Ne]; [| lra]. destruct (Rlt_dec 50 0); [lra |].
    cbn [fst]. destruct (y100_cases 0 ltac:(lra)) as [[_ ->] | [k [Hk [[_ Hx] _]]]].
    + rewrite Rmult_0_r, Ropp_0, exp_0. reflexivity.
    + unfold erfcx_y100. replace (400 / (4 + 0)) with (IZR 100) by lra. rewrite Ztrunc_IZR. cbn [Z.leb Z.ltb Z.compare].
      change (Pos.compare_cont Eq 100 100) with Eq. cbn [andb].
      rewrite Rmult_0_r, Ropp_0, exp_0. reflexivity.
  - destruct (Req_EM_T 0 0) as [_ | Ne]; [| contradiction]. reflexivity.
Qed.

Lemma centre_aux : forall w_im fuel g y, is_erfcx g -> 0 <= y ->
  exists v, profile w_im fuel 0 y = Some v /\ 0 < v /\ Rabs (v - g y) <= 0.000000000001.
Proof.
  intros w_im fuel g y Hg Hy. unfold profile, w. destruct (Req_EM_T 0 0) as [_ | Ne]; [| contradiction].
  destruct (accuracy_aux g Hg y Hy) as [v [E1 HA]]. destruct (erfcx_positive y Hy) as [v' [E2 HP]].
  rewrite E1 in E2. injection E2 as <-. rewrite E1. exists v. cbn [fst]. auto.
Qed.

(** ** The far wings are positive without damping too *)
Lemma up_loop_s3 : forall fuel y dx n0 dn s s', 0 <= s3 s -> s2 s = 0 -> (0 < n0 + dn)%Z -> (0 <= dn)%Z ->
  up_loop fuel y dx n0 dn s = Some s' -> 0 <= s3 s' /\ s2 s' = 0.
Proof.
  induction fuel as [| f IH]; intros y dx n0 dn s s' H3 H2 Hn Hd H; [discriminate |].
  cbn [up_loop] in H.
  set (tp := exp (- sqr (a_ * IZR (dn + 1) + dx)) / (a2_ * (IZR (n0 + dn) * IZR (n0 + dn)) + y * y)) in *.
  assert (Htp : 0 <= tp).
  { apply IZR_lt in Hn. apply (Rmult_le_reg_l (IZR (n0 + dn))); [assumption |]. rewrite Rmult_0_r.
    apply term_nonneg; [left; apply exp_pos | assumption]. }
  destruct (Rlt_dec _ _) in H.
  - injection H as <-. cbn [s3 s2]. split; [lra | assumption].
  - apply IH in H; [exact H | cbn [s3]; lra | exact H2 | lia | lia].
Qed.

Lemma both_loop_s3 : forall left fuel y dx e1 n0 dn ed s s', 0 <= s3 s -> s2 s = 0 -> 0 <= e1 -> 0 <= ed ->
  Z.of_nat left = (n0 - dn)%Z -> (0 <= dn)%Z -> (0 < n0)%Z ->
  both_loop fuel left y dx e1 n0 dn ed s = Some s' -> 0 <= s3 s' /\ s2 s' = 0.
Proof.
  induction left as [| l IH]; intros fuel y dx e1 n0 dn ed s s' H3 H2 He1 Hed Hl Hd Hn H; cbn [both_loop] in H.
  - apply up_loop_s3 in H; [exact H | assumption | assumption | lia | lia].
  - set (t0 := exp (- sqr (a_ * IZR dn + dx))) in *.
    assert (Ht0 : 0 < t0) by apply exp_pos.
    set (tp := t0 / (a2_ * (IZR (n0 + dn) * IZR (n0 + dn)) + y * y)) in *.
    set (tm := t0 * (ed * e1) / (a2_ * (IZR (n0 - dn) * IZR (n0 - dn)) + y * y)) in *.
    assert (Htp : 0 <= tp).
    { assert (Hp : (0 < n0 + dn)%Z) by lia. apply IZR_lt in Hp.
      apply (Rmult_le_reg_l (IZR (n0 + dn))); [assumption |]. rewrite Rmult_0_r. apply term_nonneg; [lra | assumption]. }
    assert (Htm : 0 <= tm).
    { assert (Hp : (0 < n0 - dn)%Z) by lia. apply IZR_lt in Hp.
      apply (Rmult_le_reg_l (IZR (n0 - dn))); [assumption |]. rewrite Rmult_0_r.
      apply term_nonneg; [repeat apply Rmult_le_pos; lra | assumption]. }
    destruct (Rlt_dec _ _) in H.
    + injection H as <-. cbn [s3 s2]. split; [lra | assumption].
    + apply IH in H; [exact H | cbn [s3]; lra | exact H2 | assumption | apply Rmult_le_pos; assumption | lia | lia | lia].
Qed.

Lemma far_aux : forall w_im fuel x y, 0 <= y -> 10 <= Rabs x ->
  exists v, profile w_im fuel x y = Some v /\ 0 < v.
Proof.
  intros w_im fuel x y Hy Hx.
  destruct Hy as [Hy | <-].
  2: { exists (exp (- (x * x))). split; [apply gauss_aux | apply exp_pos]. }
  assert (Hx0 : x <> 0) by (intros ->; rewrite Rabs_R0 in Hx; lra).
  destruct (cf_region_dec (Rabs x) y) as [HR | HR].
  - assert (HO : outer (Rabs x) y) by (unfold cf_region in HR; unfold outer; intuition lra).
    destruct (positive_aux w_im fuel x y Hx0 Hy HO) as [v [E1 [HP _]]]. exists v. auto.
  - destruct (ends_aux w_im x y ltac:(left; exact Hx0)) as [v Hv]. specialize (Hv fuel).
    unfold profile. rewrite Hv. exists (fst v). split; [reflexivity |]. revert Hv. unfold w.
    destruct (Req_EM_T x 0) as [Ne | _]; [contradiction |]. destruct (Req_EM_T y 0) as [Ne | _]; [lra |].
    rewrite (Rabs_pos_eq y) by lra. destruct (cf_region_dec (Rabs x) y) as [Ne | _]; [contradiction |].
    destruct (Rlt_dec (Rabs x) 10) as [Ne | _]; [lra |].
    destruct (not_outer (Rabs x) y HR Hx) as [Hu _].
    destruct (n0_range (Rabs x) ltac:(lra)) as [Hn _].
    set (n0 := Zfloor (Rabs x / a_ + 0.5)) in *. cbv zeta.
    match goal with |- context [both_loop fuel ?l y ?d ?e n0 1 1 ?s] =>
      destruct (both_loop fuel l y d e n0 1 1 s) as [s' |] eqn:HB end; [| discriminate].
    intros Hv. injection Hv as <-. unfold finish. cbn [fst].
    apply both_loop_s3 in HB.
    + destruct HB as [H3 H2]. rewrite H2, Rplus_0_l.
      apply Rplus_lt_le_0_compat; [apply exp_pos |].
      apply Rmult_le_pos; [apply Rmult_le_pos; [unfold c_; lra | lra] | assumption].
    + cbn [s3]. assert (Hp : (0 < n0)%Z) by lia. apply IZR_lt in Hp.
      apply (Rmult_le_reg_l (IZR n0)); [assumption |]. rewrite Rmult_0_r. apply term_nonneg; [left; apply exp_pos | assumption].
    + reflexivity.
    + left. apply exp_pos.
    + lra.
    + lia.
    + lia.
    + lia.
Qed.
