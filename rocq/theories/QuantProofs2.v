(** The mass a cell deposits. *)
From Coq Require Import ZArith List Reals Lra Lia.
From Coquelicot Require Import Coquelicot.
From Verif Require Import AbsorptionModel AbsorptionSpec AbsorptionProofs AbsorptionProps.
Import ListNotations.
Local Open Scope R_scope.

Lemma sqrt_small : forall eps h, 0 < eps -> h < eps * eps -> sqrt h < eps.
Proof.
  intros eps h P H. rewrite <- (sqrt_square eps) by lra. destruct (Rle_lt_dec 0 h).
  - apply sqrt_lt_1; nra.
  - rewrite (sqrt_neg_0 h) by lra. apply sqrt_lt_R0. nra.
Qed.

Lemma derive_at_0 : is_derive (fun y => y * sqrt y) 0 0.
Proof.
  apply is_derive_Reals. intros eps P.
  assert (Pd : 0 < eps * eps) by nra. exists (mkposreal _ Pd). intros h Nh Hh. cbn [pos] in Hh.
  replace (((0 + h) * sqrt (0 + h) - 0 * sqrt 0) / h - 0) with (sqrt h) by (rewrite Rplus_0_l; field; exact Nh).
  rewrite Rabs_pos_eq by apply sqrt_pos. apply sqrt_small; [exact P|].
  apply Rabs_def2 in Hh. lra.
Qed.

Lemma derive_32 : forall y, 0 <= y -> is_derive (fun y => y * sqrt y) y (3 / 2 * sqrt y).
Proof.
  intros y [P|<-].
  - assert (Ps : 0 < sqrt y) by now apply sqrt_lt_R0.
    auto_derive; [exact P|]. rewrite <- (sqrt_sqrt y) at 2 by lra. field. lra.
  - rewrite sqrt_0. replace (3 / 2 * 0) with 0 by ring. exact derive_at_0.
Qed.

Lemma ball_integral : forall rho r, 0 <= r ->
  is_RInt (fun b => 3 * rho * b * sqrt (r * r - b * b)) 0 r (rho * (r * r * r)).
Proof.
  intros rho r Hr.
  set (F := fun b => - rho * ((r * r - b * b) * sqrt (r * r - b * b))).
  assert (E : rho * (r * r * r) = minus (F r) (F 0)).
  { unfold F, minus, plus, opp. cbn. replace (r * r - r * r) with 0 by ring. replace (r * r - 0 * 0) with (r * r) by ring.
    rewrite sqrt_0, sqrt_square by exact Hr. ring. }
  rewrite E. apply (is_RInt_derive F).
  - intros b Hb. rewrite Rmin_left, Rmax_right in Hb by exact Hr.
    assert (Y : 0 <= r * r - b * b) by nra.
    unfold F. replace (3 * rho * b * sqrt (r * r - b * b)) with (- rho * (- (2 * b) * (3 / 2 * sqrt (r * r - b * b)))) by field.
    apply (is_derive_scal (fun b => (r * r - b * b) * sqrt (r * r - b * b))).
    apply (is_derive_comp (fun y => y * sqrt y) (fun b => r * r - b * b)).
    + now apply derive_32.
    + auto_derive; [exact I|ring].
  - intros b Hb. rewrite Rmin_left, Rmax_right in Hb by exact Hr.
    apply (continuous_mult (fun b => 3 * rho * b) (fun b => sqrt (r * r - b * b))).
    + apply (ex_derive_continuous (fun b => 3 * rho * b)). auto_derive. exact I.
    + apply (continuous_comp (fun b => r * r - b * b) sqrt).
      * apply (ex_derive_continuous (fun b => r * r - b * b)). auto_derive. exact I.
      * apply continuous_sqrt.
Qed.

Lemma C72_cell_mass_aux : forall m rho r vbox velfac n pos, 0 < rho -> 0 < r -> r * r * r = m / rho ->
  0 < vbox -> 0 < velfac -> (0 < n)%nat ->
  exists column : R -> R,
    (forall b, 0 <= b < r -> exists colden,
       add_colden_particle TopHat vbox velfac (Z.of_nat n) (b * b) rho pos r (repeat 0 n) = Some colden /\
       rsum colden = column b) /\
    is_RInt (fun b => 2 * PI * b * column b) 0 r m.
Proof.
  intros m rho r vbox velfac n pos Pr P E Hv Hf Hn.
  exists (fun b => rho * (3 / (4 * PI) * (2 * sqrt (r * r - b * b)))). split.
  - intros b [B0 B1]. destruct (C07_tophat_aux vbox velfac n (b * b) rho pos r (repeat 0 n)) as (c & A & B); auto.
    + apply repeat_length.
    + nra.
    + exists c. split; [exact A|]. rewrite B.
      assert (Z0 : rsum (repeat 0 n) = 0). { clear. induction n; [reflexivity|]. change (0 + rsum (repeat 0 n) = 0). rewrite IHn. ring. }
      rewrite Z0. ring.
  - assert (Em : m = rho * (r * r * r)) by (rewrite E; field; lra). rewrite Em.
    apply is_RInt_ext with (f := fun b => 3 * rho * b * sqrt (r * r - b * b)); [|apply ball_integral; lra].
    intros b _. pose proof PI_RGT_0 as PP. cbv beta.
    transitivity (2 * PI * b * (rho * (3 / (4 * PI) * (2 * sqrt (r * r - b * b))))); [|reflexivity].
    replace (2 * PI * b * (rho * (3 / (4 * PI) * (2 * sqrt (r * r - b * b))))) with (3 * rho * b * sqrt (r * r - b * b)); [reflexivity|].
    field. lra.
Qed.
