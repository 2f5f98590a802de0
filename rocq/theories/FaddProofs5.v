(** The table of erfcx is close to exp(x^2) erfc(x) everywhere. *)
From Coq Require Import Reals ZArith Lra Lia Machin.
From Coquelicot Require Import Coquelicot.
From Coq Require Import List.
From Flocq Require Import Core.Raux.
From Verif Require Import FaddTable FaddModel FaddSpec FaddProofs FaddProofs2 FaddProofs4.
Import ListNotations.
Local Open Scope R_scope.

Definition E (t : R) : R := exp (- (t * t)).

Lemma E_derive : forall t, is_derive E t (- (2 * t) * E t).
Proof. intros t. unfold E. auto_derive; [exact I | ring]. Qed.

Lemma E_cont : forall t, continuous E t.
Proof. intros t. apply (ex_derive_continuous (V := R_NormedModule)). exists (- (2 * t) * E t). apply E_derive. Qed.

Lemma E_int : forall a b, ex_RInt E a b.
Proof. intros a b. apply (ex_RInt_continuous (V := R_CompleteNormedModule)). intros. apply E_cont. Qed.

Lemma E_pos : forall t, 0 < E t.
Proof. intros. apply exp_pos. Qed.

Section Truth.
Variable g : R -> R.
Hypothesis Hg : is_erfcx g.

Let c2 := 2 / sqrt PI.

Lemma c2_pos : 0 < c2.
Proof. unfold c2. apply Rdiv_lt_0_compat; [lra |]. apply sqrt_lt_R0. apply PI_RGT_0. Qed.

Lemma g_form : forall x, g x = exp (x * x) * (g 0 - c2 * RInt E 0 x).
Proof.
  intros x. pose proof (Hg x) as H1. pose proof (Hg 0) as H0. fold c2 in H1, H0.
  assert (H2 : is_lim (fun b => c2 * exp (x * x) * RInt E x b) p_infty (exp (x * x) * (g 0 - c2 * RInt E 0 x))).
  { apply (is_lim_ext (fun b => exp (x * x) * (c2 * exp (0 * 0) * RInt E 0 b - c2 * RInt E 0 x))).
    - intros b. rewrite Rmult_0_l, exp_0.
      rewrite <- (RInt_Chasles E 0 x b) by apply E_int. unfold plus; cbn. ring.
    - apply (is_lim_scal_l _ (exp (x * x)) p_infty (g 0 - c2 * RInt E 0 x)).
      apply (is_lim_minus' _ _ p_infty (g 0) (c2 * RInt E 0 x)); [exact H0 | apply is_lim_const]. }
  apply is_lim_unique in H1. apply is_lim_unique in H2. fold E in H1.
  change (fun b : R => c2 * exp (x * x) * RInt (fun t : R => exp (- (t * t))) x b)
    with (fun b : R => c2 * exp (x * x) * RInt E x b) in H1.
  rewrite H1 in H2. injection H2. auto.
Qed.

Lemma g_derive : forall x, is_derive g x (2 * x * g x - c2).
Proof.
  intros x.
  apply (is_derive_ext (fun u => exp (u * u) * (g 0 - c2 * RInt E 0 u))); [intros; symmetry; apply g_form |].
  assert (HJ : is_derive (fun u => RInt E 0 u) x (E x)).
  { apply (is_derive_RInt (V := R_NormedModule) E (fun u => RInt E 0 u) 0 x); [| apply E_cont].
    exists (mkposreal 1 Rlt_0_1). intros u _. apply (RInt_correct (V := R_CompleteNormedModule)). apply E_int. }
  set (J := fun u => RInt E 0 u) in *.
  assert (HD : Derive J x = E x) by (apply is_derive_unique; exact HJ).
  rewrite (g_form x). change (RInt E 0 x) with (J x).
  change (is_derive (fun u => exp (u * u) * (g 0 - c2 * J u)) x (2 * x * (exp (x * x) * (g 0 - c2 * J x)) - c2)).
  clearbody J. auto_derive.
  - exists (E x). exact HJ.
  - replace (Derive (fun u : R => J u) x) with (E x) by (symmetry; exact HD).
    assert (HE : exp (x * x) * E x = 1) by (unfold E; rewrite <- exp_plus, Rplus_opp_r; apply exp_0).
    replace (2 * x * (exp (x * x) * (g 0 - c2 * J x)) - c2)
      with (2 * x * (exp (x * x) * (g 0 - c2 * J x)) - c2 * (exp (x * x) * E x)) by (rewrite HE; ring).
    ring.
Qed.

Lemma int_tail : forall x b, 1 <= x <= b -> 0 <= RInt E x b <= E x / 2.
Proof.
  intros x b H. split.
  - apply RInt_ge_0; [lra | apply E_int | intros; left; apply E_pos].
  - assert (HI : is_RInt (fun t => t * E t) x b (- E b / 2 - (- E x / 2))).
    { apply (is_RInt_derive (V := R_CompleteNormedModule) (fun t => - E t / 2) (fun t => t * E t)).
      - intros t _. unfold E. auto_derive; [exact I | field].
      - intros t _. apply (continuous_mult (fun t => t) E); [apply continuous_id | apply E_cont]. }
    apply Rle_trans with (- E b / 2 - (- E x / 2)).
    + apply (is_RInt_le E (fun t => t * E t) x b); [lra | apply (RInt_correct (V := R_CompleteNormedModule)), E_int | exact HI |].
      intros t Ht. pose proof (E_pos t). nra.
    + pose proof (E_pos b). lra.
Qed.

Lemma sqrt_PI_gt1 : 1 < sqrt PI.
Proof. rewrite <- sqrt_1. apply sqrt_lt_1; pose proof PI2_3_2; pose proof PI_RGT_0; lra. Qed.

Lemma g_bounds : forall x, 1 <= x -> 0 <= g x <= 1.
Proof.
  intros x Hx. pose proof (Hg x) as H. fold c2 in H.
  assert (HE : exp (x * x) * E x = 1) by (unfold E; rewrite <- exp_plus, Rplus_opp_r; apply exp_0).
  assert (Hc : c2 <= 2).
  { unfold c2. pose proof sqrt_PI_gt1. apply (Rmult_le_reg_r (sqrt PI)); [lra |].
    replace (2 / sqrt PI * sqrt PI) with 2 by (field; lra). lra. }
  pose proof c2_pos as Hc0. pose proof (exp_pos (x * x)) as Hp.
  assert (HB : forall b, x <= b -> 0 <= c2 * exp (x * x) * RInt E x b <= 1).
  { intros b Hb. pose proof (int_tail x b ltac:(lra)) as [I1 I2].
    assert (0 < c2 * exp (x * x)) by (apply Rmult_lt_0_compat; assumption). split.
    - apply Rmult_le_pos; lra.
    - apply Rle_trans with (c2 * exp (x * x) * (E x / 2)); [apply Rmult_le_compat_l; lra |].
      replace (c2 * exp (x * x) * (E x / 2)) with (c2 * (exp (x * x) * E x) / 2) by field. rewrite HE. lra. }
  assert (HL : Rbar_locally' p_infty (fun b => 0 <= c2 * exp (x * x) * RInt E x b <= 1)).
  { exists x. intros b Hb. apply HB. lra. }
  split.
  - refine (is_lim_le_loc (fun _ => 0) _ p_infty 0 (g x) _ (is_lim_const 0 p_infty) H).
    destruct HL as [M HM]. exists M. intros b Hb. apply (HM b Hb).
  - refine (is_lim_le_loc _ (fun _ => 1) p_infty (g x) 1 _ H (is_lim_const 1 p_infty)).
    destruct HL as [M HM]. exists M. intros b Hb. apply (HM b Hb).
Qed.

(** ** How far a function with a small residual can be from the truth *)
Lemma h_derive : forall (e : R -> R) t d, is_derive e t (2 * t * e t + d) ->
  is_derive (fun u => E u * e u) t (E t * d).
Proof.
  intros e t d H. apply is_derive_Reals. apply is_derive_Reals in H.
  replace (E t * d) with (- (2 * t) * E t * e t + E t * (2 * t * e t + d)) by ring.
  apply (derivable_pt_lim_mult E e); [apply is_derive_Reals, E_derive | exact H].
Qed.

Lemma E_mono : forall s t, 0 <= s <= t -> E t <= E s.
Proof. intros s t H. unfold E. apply exp_mono. nra. Qed.

Lemma decay : forall (e r : R -> R) x X rho, 0 <= x <= X ->
  (forall t, x <= t <= X -> is_derive e t (2 * t * e t + r t)) ->
  (forall t, x <= t <= X -> Rabs (r t) <= rho) ->
  Rabs (e x) <= Rabs (e X) + rho * (X - x).
Proof.
  intros e r x X rho Hx He Hr.
  destruct (MVT_gen (fun u => E u * e u) x X (fun t => E t * r t)) as [c [Hc HM]].
  - rewrite Rmin_left, Rmax_right by lra. intros t Ht. apply h_derive. apply He. lra.
  - rewrite Rmin_left, Rmax_right by lra. intros t Ht. apply continuity_pt_filterlim.
    refine (ex_derive_continuous (V := R_NormedModule) (fun u => E u * e u) t _). exists (E t * r t). apply h_derive, He. lra.
  - rewrite Rmin_left, Rmax_right in Hc by lra.
    pose proof (Hr c ltac:(lra)) as Hrc. pose proof (E_mono x c ltac:(lra)) as Hec. pose proof (E_mono x X ltac:(lra)) as HeX.
    pose proof (E_pos x) as Hx0. pose proof (E_pos c) as Hc0. pose proof (E_pos X) as HX0.
    assert (HA : E x * Rabs (e x) <= E X * Rabs (e X) + E c * Rabs (r c) * (X - x)).
    { rewrite <- (Rabs_pos_eq (E x)), <- (Rabs_pos_eq (E X)), <- (Rabs_pos_eq (E c)), <- (Rabs_pos_eq (X - x)) by lra.
      rewrite <- !Rabs_mult. replace (E x * e x) with (E X * e X + - (E c * r c * (X - x))) by lra.
      apply Rle_trans with (1 := Rabs_triang _ _). rewrite Rabs_Ropp. lra. }
    pose proof (Rabs_pos (e X)). pose proof (Rabs_pos (r c)).
    assert (E X * Rabs (e X) <= E x * Rabs (e X)) by (apply Rmult_le_compat_r; lra).
    assert (E c * Rabs (r c) * (X - x) <= E x * rho * (X - x)).
    { apply Rmult_le_compat_r; [lra |]. apply Rmult_le_compat; lra. }
    apply (Rmult_le_reg_l (E x)); [assumption |]. lra.
Qed.

Lemma decay_side : forall (e r : R -> R) x x0 X rho s, 0 < x0 -> x0 <= x <= X -> s = 1 \/ s = -1 ->
  (forall t, x <= t -> is_derive e t (2 * t * e t + r t)) ->
  (forall t, x <= t -> Rabs (r t) <= rho) ->
  s * (E x * e x) <= s * (E X * e X) + rho / (2 * x0) * (E x - E X).
Proof.
  intros e r x x0 X rho s H0 Hx Hs He Hr.
  assert (HD : forall t, x <= t ->
    is_derive (fun u => s * (E u * e u) - rho / (2 * x0) * E u) t (s * (E t * r t) - rho / (2 * x0) * (- (2 * t) * E t))).
  { intros t Ht. apply is_derive_Reals.
    apply (derivable_pt_lim_minus (fun u => s * (E u * e u)) (fun u => rho / (2 * x0) * E u)).
    - apply (derivable_pt_lim_scal (fun u => E u * e u)). apply is_derive_Reals, h_derive, He, Ht.
    - apply derivable_pt_lim_scal. apply is_derive_Reals, E_derive. }
  destruct (MVT_gen (fun u => s * (E u * e u) - rho / (2 * x0) * E u) x X
              (fun t => s * (E t * r t) - rho / (2 * x0) * (- (2 * t) * E t))) as [c [Hc HM]].
  - rewrite Rmin_left, Rmax_right by lra. intros t Ht. apply HD. lra.
  - rewrite Rmin_left, Rmax_right by lra. intros t Ht. apply continuity_pt_filterlim.
    refine (ex_derive_continuous (V := R_NormedModule) (fun u => s * (E u * e u) - rho / (2 * x0) * E u) t _).
    eexists. apply HD. lra.
  - rewrite Rmin_left, Rmax_right in Hc by lra.
    pose proof (Hr c ltac:(lra)) as Hrc. pose proof (E_pos c) as HE.
    assert (0 <= s * (E c * r c) - rho / (2 * x0) * (- (2 * c) * E c)).
    { replace (s * (E c * r c) - rho / (2 * x0) * (- (2 * c) * E c)) with (E c * (s * r c + rho * (c / x0)))
        by (field; lra).
      apply Rmult_le_pos; [lra |].
      assert (1 <= c / x0).
      { apply (Rmult_le_reg_r x0); [assumption |]. replace (c / x0 * x0) with c by (field; lra). lra. }
      assert (0 <= rho) by (pose proof (Rabs_pos (r c)); lra).
      apply Rabs_le_between in Hrc. destruct Hs as [-> | ->]; nra. }
    assert (0 <= (s * (E c * r c) - rho / (2 * x0) * (- (2 * c) * E c)) * (X - x)) by (apply Rmult_le_pos; lra).
    lra.
Qed.

Lemma decay_inf : forall (e r : R -> R) x x0 rho B, 0 < x0 -> x0 <= x -> 1 <= x -> 0 <= B ->
  (forall t, x <= t -> is_derive e t (2 * t * e t + r t)) ->
  (forall t, x <= t -> Rabs (r t) <= rho) ->
  (forall t, x <= t -> Rabs (e t) <= B) ->
  Rabs (e x) <= rho / (2 * x0).
Proof.
  intros e r x x0 rho B H0 Hx Hx1 HB He Hr Hb.
  assert (Hrho : 0 <= rho) by (pose proof (Hr x ltac:(lra)); pose proof (Rabs_pos (r x)); lra).
  assert (HX : forall X, x <= X -> Rabs (e x) <= exp (x * x - X * X) * B + rho / (2 * x0)).
  { intros X HX.
    pose proof (decay_side e r x x0 X rho 1 H0 ltac:(lra) ltac:(left; reflexivity) He Hr) as D1.
    pose proof (decay_side e r x x0 X rho (-1) H0 ltac:(lra) ltac:(right; reflexivity) He Hr) as D2.
    pose proof (Hb X HX) as HbX. pose proof (E_pos x). pose proof (E_pos X).
    assert (HQ : 0 <= rho / (2 * x0)) by (apply Rmult_le_pos; [lra | left; apply Rinv_0_lt_compat; lra]).
    assert (HEX : E X * Rabs (e X) <= E X * B) by (apply Rmult_le_compat_l; lra).
    assert (HA : E x * Rabs (e x) <= E X * B + rho / (2 * x0) * E x).
    { assert (Hq : 0 <= rho / (2 * x0) * E X) by (apply Rmult_le_pos; lra).
      assert (A1 : E X * e X <= E X * Rabs (e X)) by (apply Rmult_le_compat_l; [lra | apply Rle_abs]).
      assert (A2 : - (E X * e X) <= E X * Rabs (e X)).
      { rewrite <- Ropp_mult_distr_r_reverse. apply Rmult_le_compat_l; [lra |]. rewrite <- Rabs_Ropp. apply Rle_abs. }
      destruct (Rcase_abs (e x)) as [Hn | Hn].
      - rewrite Rabs_left by assumption. lra.
      - rewrite Rabs_right by assumption. lra. }
    assert (HEE : E X = E x * exp (x * x - X * X)) by (unfold E; rewrite <- exp_plus; f_equal; ring).
    rewrite HEE in HA. apply (Rmult_le_reg_l (E x)); [assumption |]. lra. }
  apply Rnot_lt_le. intros Hlt. set (d := Rabs (e x) - rho / (2 * x0)). assert (Hd : 0 < d) by (unfold d; lra).
  set (u := B / d). assert (Hu : 0 <= u) by (unfold u; apply Rmult_le_pos; [lra | left; apply Rinv_0_lt_compat; lra]).
  pose proof (HX (x + u) ltac:(lra)) as HXu.
  assert (He1 : exp (x * x - (x + u) * (x + u)) * (1 + u) <= 1).
  { assert (H1 : 1 + u <= exp u).
    { destruct Hu as [Hu | <-]; [left; apply exp_ineq1; lra | rewrite exp_0; lra]. }
    assert (H2 : exp (x * x - (x + u) * (x + u)) <= exp (- u)) by (apply exp_mono; nra).
    rewrite exp_Ropp in H2.
    pose proof (exp_pos (x * x - (x + u) * (x + u))) as H3. pose proof (exp_pos u) as H4.
    apply Rle_trans with (/ exp u * exp u); [apply Rmult_le_compat; lra |]. rewrite Rinv_l by lra. lra. }
  set (q := exp (x * x - (x + u) * (x + u))) in *.
  assert (HuB : u * d = B) by (unfold u; field; lra).
  assert (d <= q * B) by (unfold d; lra). pose proof (exp_pos (x * x - (x + u) * (x + u))) as Hq. fold q in Hq.
  assert (d * (1 + u) <= q * B * (1 + u)) by (apply Rmult_le_compat_r; lra).
  assert (q * (1 + u) * B <= B) by (rewrite <- (Rmult_1_l B) at 2; apply Rmult_le_compat_r; lra).
  nra.
Qed.
End Truth.
