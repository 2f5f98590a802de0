(** The integral of exp(-x^2), with explicit bounds on every finite interval. *)
From Coq Require Import Reals ZArith Lra Lia.
From Coquelicot Require Import Coquelicot.
From Coq Require Import List.
From Flocq Require Import Core.Raux.
From Verif Require Import IoniseProofs.
Import ListNotations.
Local Open Scope R_scope.

Definition ge (x : R) : R := exp (- (x * x)).
Definition erf0 (t : R) : R := RInt ge 0 t.

Lemma ge_pos : forall x, 0 < ge x.
Proof. intros x. apply exp_pos. Qed.

Lemma ge_le1 : forall x, ge x <= 1.
Proof. intros x. unfold ge. rewrite <- exp_0. apply exp_le. nra. Qed.

Lemma ge_cont : forall x, continuous ge x.
Proof.
  intros x. apply (ex_derive_continuous ge). unfold ge. auto_derive. exact I.
Qed.

Lemma ge_int : forall a b, ex_RInt ge a b.
Proof. intros a b. apply (ex_RInt_continuous (V := R_CompleteNormedModule)). intros z _. apply ge_cont. Qed.

Lemma erf0_derive : forall x, is_derive erf0 x (ge x).
Proof.
  intros x. unfold erf0. apply (is_derive_RInt ge erf0 0 x).
  - apply filter_forall. intros y. apply (RInt_correct (V := R_CompleteNormedModule)), ge_int.
  - apply ge_cont.
Qed.

Lemma erf0_0 : erf0 0 = 0.
Proof. unfold erf0. apply (RInt_point (V := R_CompleteNormedModule)). Qed.

(** The companion integral. *)
Definition comp (t x : R) : R := exp (- (t * t * (1 + x * x))) / (1 + x * x).

Lemma comp_derive : forall t x, is_derive (fun u => comp u x) t (- 2 * t * exp (- (t * t * (1 + x * x)))).
Proof.
  intros t x. unfold comp. auto_derive; [nra |]. field. nra.
Qed.

Lemma comp_int : forall t, ex_RInt (comp t) 0 1.
Proof.
  intros t. apply (ex_RInt_continuous (V := R_CompleteNormedModule)). intros z _. apply (ex_derive_continuous (comp t)). unfold comp.
  auto_derive. nra.
Qed.

Lemma exp_2d : forall t x, continuity_2d_pt (fun u v => - 2 * u * exp (- (u * u * (1 + v * v)))) t x.
Proof.
  intros t x. apply continuity_2d_pt_mult.
  - apply continuity_2d_pt_mult; [apply continuity_2d_pt_const | apply continuity_2d_pt_id1].
  - apply (continuity_1d_2d_pt_comp exp (fun u v => - (u * u * (1 + v * v)))).
    + apply derivable_continuous_pt, derivable_pt_exp.
    + apply continuity_2d_pt_opp, continuity_2d_pt_mult.
      * apply continuity_2d_pt_mult; apply continuity_2d_pt_id1.
      * apply continuity_2d_pt_plus; [apply continuity_2d_pt_const |].
        apply continuity_2d_pt_mult; apply continuity_2d_pt_id2.
Qed.

Lemma comp_RInt_derive : forall t,
  is_derive (fun u => RInt (comp u) 0 1) t (- 2 * ge t * erf0 t).
Proof.
  intros t.
  replace (- 2 * ge t * erf0 t) with (RInt (fun x => Derive (fun u => comp u x) t) 0 1).
  - apply is_derive_RInt_param.
    + apply filter_forall. intros y x _. exists (- 2 * y * exp (- (y * y * (1 + x * x)))). apply comp_derive.
    + intros x _. apply (continuity_2d_pt_ext (fun u v => - 2 * u * exp (- (u * u * (1 + v * v))))).
      * intros u v. symmetry. apply is_derive_unique, comp_derive.
      * apply exp_2d.
    + apply filter_forall. intros y. apply comp_int.
  - apply is_RInt_unique.
    apply (is_RInt_ext (fun x => scal (- 2 * ge t) (scal t (ge (t * x + 0))))).
    + intros x _. cbv beta. replace (Derive (fun u => comp u x) t) with (- 2 * t * exp (- (t * t * (1 + x * x))))
        by (symmetry; apply is_derive_unique, comp_derive).
      unfold scal. simpl. unfold mult. simpl.
      unfold ge. replace (- (t * t * (1 + x * x))) with (- (t * t) + - ((t * x + 0) * (t * x + 0))) by ring.
      rewrite exp_plus. ring.
    + apply (is_RInt_scal (fun x => scal t (ge (t * x + 0))) 0 1 (- 2 * ge t) (erf0 t)).
      apply (is_RInt_comp_lin ge t 0 0 1). replace (t * 0 + 0) with 0 by ring. rewrite Rmult_1_r, Rplus_0_r.
      apply (RInt_correct (V := R_CompleteNormedModule)), ge_int.
Qed.

Lemma const_on : forall (f : R -> R), (forall x, is_derive f x 0) -> forall t, f t = f 0.
Proof.
  intros f H t. destruct (Req_dec t 0) as [-> | Ht]; [reflexivity |].
  destruct (MVT_gen f 0 t (fun _ => 0)) as (c & _ & Hc).
  - intros x _. apply H.
  - intros x _. apply derivable_continuous_pt. exists 0. apply is_derive_Reals, H.
  - lra.
Qed.

Lemma comp_0 : forall x : R, comp 0 x = / (1 + x ^ 2).
Proof.
  intros x. unfold comp. replace (- (0 * 0 * (1 + x * x))) with 0 by ring. rewrite exp_0. field. nra.
Qed.

Lemma gauss_square : forall t, erf0 t * erf0 t + RInt (comp t) 0 1 = PI / 4.
Proof.
  intros t.
  rewrite (const_on (fun u => erf0 u * erf0 u + RInt (comp u) 0 1)).
  - rewrite erf0_0. rewrite (RInt_ext _ (fun x => / (1 + x ^ 2))).
    + assert (H : is_RInt (fun x => / (1 + x ^ 2)) 0 1 (minus (atan 1) (atan 0))).
      { apply (is_RInt_derive atan (fun x => / (1 + x ^ 2))).
        - intros x _. apply is_derive_Reals, derivable_pt_lim_atan.
        - intros x _. apply (ex_derive_continuous (fun y => / (1 + y ^ 2))). auto_derive. nra. }
      rewrite (is_RInt_unique _ _ _ _ H). unfold minus, plus, opp. simpl. rewrite atan_0, atan_1. lra.
    + intros x _. apply comp_0.
  - intros x.
    assert (D : is_derive (fun u => erf0 u * erf0 u + RInt (comp u) 0 1) x
                  (plus (ge x * erf0 x + erf0 x * ge x) (- 2 * ge x * erf0 x))).
    { apply (is_derive_plus (fun u => erf0 u * erf0 u) (fun u => RInt (comp u) 0 1)).
      - apply (is_derive_mult erf0 erf0); try apply erf0_derive. intros; apply Rmult_comm.
      - apply comp_RInt_derive. }
    assert (Z : plus (ge x * erf0 x + erf0 x * ge x) (- 2 * ge x * erf0 x) = 0) by (unfold plus; simpl; ring).
    rewrite Z in D. exact D.
Qed.

Lemma comp_small : forall t, 0 <= RInt (comp t) 0 1 <= ge t * (PI / 4).
Proof.
  intros t. split.
  - apply RInt_ge_0; [lra | apply comp_int |]. intros x Hx. unfold comp.
    apply Rmult_le_pos; [left; apply exp_pos | left; apply Rinv_0_lt_compat; nra].
  - assert (H0 : RInt (comp 0) 0 1 = PI / 4).
    { pose proof (gauss_square 0) as H. rewrite erf0_0 in H. lra. }
    rewrite <- H0.
    assert (HS : is_RInt (fun x => scal (ge t) (comp 0 x)) 0 1 (scal (ge t) (RInt (comp 0) 0 1))).
    { apply (is_RInt_scal (comp 0) 0 1 (ge t)). apply (RInt_correct (V := R_CompleteNormedModule)), comp_int. }
    replace (ge t * RInt (comp 0) 0 1) with (RInt (fun x => scal (ge t) (comp 0 x)) 0 1)
      by (rewrite (is_RInt_unique _ _ _ _ HS); reflexivity).
    apply RInt_le; [lra | apply comp_int | exists (scal (ge t) (RInt (comp 0) 0 1)); exact HS |].
    intros x Hx. rewrite comp_0. unfold scal. simpl. unfold mult. simpl. unfold comp, ge.
    replace (/ (1 + x * (x * 1))) with (/ (1 + x * x)) by (f_equal; ring).
    apply Rmult_le_compat_r; [left; apply Rinv_0_lt_compat; nra |]. apply exp_le. nra.
Qed.

Lemma erf0_odd : forall t, erf0 (- t) = - erf0 t.
Proof.
  intros t. unfold erf0.
  assert (H : is_RInt (fun x => scal (-1) (ge (-1 * x + 0))) 0 t (RInt ge 0 (- t))).
  { apply (is_RInt_comp_lin ge (-1) 0 0 t). replace (-1 * 0 + 0) with 0 by ring.
    replace (-1 * t + 0) with (- t) by ring. apply (RInt_correct (V := R_CompleteNormedModule)), ge_int. }
  assert (H2 : is_RInt (fun x => scal (-1) (ge (-1 * x + 0))) 0 t (scal (-1) (RInt ge 0 t))).
  { apply (is_RInt_ext (fun x => scal (-1) (ge x))).
    - intros x _. f_equal. unfold ge. f_equal. ring.
    - apply (is_RInt_scal ge 0 t (-1)). apply (RInt_correct (V := R_CompleteNormedModule)), ge_int. }
  rewrite <- (is_RInt_unique _ _ _ _ H), (is_RInt_unique _ _ _ _ H2).
  unfold scal. simpl. unfold mult. simpl. ring.
Qed.

Lemma erf0_incr : forall x y, x <= y -> erf0 x <= erf0 y.
Proof.
  intros x y H.
  assert (E : erf0 y - erf0 x = RInt ge x y).
  { unfold erf0. pose proof (RInt_Chasles ge 0 x y (ge_int 0 x) (ge_int x y)) as C.
    unfold plus in C. simpl in C. lra. }
  assert (0 <= RInt ge x y); [| lra].
  apply RInt_ge_0; [assumption | apply ge_int |]. intros; left; apply ge_pos.
Qed.

(** Half of sqrt(pi), up to a factor 1 - exp(-t^2) from below. *)
Lemma erf0_bounds : forall t, 0 <= t -> sqrt PI / 2 * (1 - ge t) <= erf0 t <= sqrt PI / 2.
Proof.
  intros t Ht. pose proof (gauss_square t) as G. pose proof (comp_small t) as C.
  pose proof (erf0_incr 0 t Ht) as E0. rewrite erf0_0 in E0.
  pose proof PI_RGT_0 as HP. pose proof (sqrt_sqrt PI ltac:(lra)) as HS. pose proof (sqrt_lt_R0 PI HP) as HS0.
  pose proof (ge_pos t) as Hg. pose proof (ge_le1 t) as Hg1.
  split.
  - apply Rsqr_incr_0_var; [| assumption]. unfold Rsqr.
    assert (A : (1 - ge t) * (1 - ge t) <= 1 - ge t) by nra.
    assert (B : sqrt PI / 2 * (1 - ge t) * (sqrt PI / 2 * (1 - ge t)) = PI / 4 * ((1 - ge t) * (1 - ge t)))
      by (replace (sqrt PI / 2 * (1 - ge t) * (sqrt PI / 2 * (1 - ge t)))
            with (sqrt PI * sqrt PI / 4 * ((1 - ge t) * (1 - ge t))) by field; rewrite HS; reflexivity).
    rewrite B. assert (PI / 4 * ((1 - ge t) * (1 - ge t)) <= PI / 4 * (1 - ge t)) by (apply Rmult_le_compat_l; lra).
    lra.
  - apply Rsqr_incr_0_var; [| lra]. unfold Rsqr.
    replace (sqrt PI / 2 * (sqrt PI / 2)) with (sqrt PI * sqrt PI / 4) by field. rewrite HS. lra.
Qed.
