(** How fast the recombination of He+ may grow with temperature: never faster than the sixth power. *)
From Coq Require Import Reals Lra Lia.
From Coquelicot Require Import Coquelicot.
From Verif Require Import RatesModel RatesSpec RatesProofs IoniseSpec IoniseProofs.
Local Open Scope R_scope.

Lemma exp_one_plus : forall x, 1 + x <= exp x.
Proof.
  intros x. destruct (Req_dec x 0) as [-> | N]. rewrite exp_0. lra. left. now apply exp_ineq1.
Qed.

Lemma exp75 : 804 <= exp 7.5.
Proof.
  pose proof (exp_one_plus 0.25) as H.
  replace 7.5 with (0.25 * 30) by lra.
  assert (E : exp (0.25 * 30) = exp 0.25 ^ 30).
  { rewrite <- Rpower_pow by apply exp_pos. unfold Rpower. rewrite ln_exp. f_equal. simpl INR. lra. }
  rewrite E. apply Rle_trans with (1.25 ^ 30). lra. apply pow_incr. lra.
Qed.

Lemma exp_cube : forall w, 0 <= w -> (1 + w / 3) * (1 + w / 3) * (1 + w / 3) <= exp w.
Proof.
  intros w W. pose proof (exp_one_plus (w / 3)) as H.
  replace (exp w) with (exp (w / 3) * exp (w / 3) * exp (w / 3)).
  2: { rewrite <- !exp_plus. f_equal. lra. }
  set (a := 1 + w / 3) in *. assert (1 <= a) by (unfold a; lra). set (b := exp (w / 3)) in *. clearbody a b.
  apply Rmult_le_compat; try lra. nra. apply Rmult_le_compat; lra.
Qed.

Lemma tail_bound : forall u, 7.5 <= u -> (u - 7.5) * u * (u + 9) * exp (- u) <= 0.14.
Proof.
  intros u U. set (w := u - 7.5). replace u with (7.5 + w) by (unfold w; lra). assert (W : 0 <= w) by (unfold w; lra).
  clearbody w. pose proof (exp_cube w W) as C. pose proof exp75 as E.
  assert (L : 804 * ((1 + w / 3) * (1 + w / 3) * (1 + w / 3)) <= exp (7.5 + w)).
  { rewrite exp_plus. apply Rmult_le_compat; try lra. repeat apply Rmult_le_pos; lra. }
  rewrite exp_Ropp. apply Rmult_le_reg_r with (exp (7.5 + w)). apply exp_pos.
  rewrite Rmult_assoc, Rinv_l. 2: { pose proof (exp_pos (7.5 + w)). lra. }
  assert (w * (7.5 + w) * (7.5 + w + 9) <= 0.14 * (804 * ((1 + w / 3) * (1 + w / 3) * (1 + w / 3)))).
  { assert (0 <= w * w * w) by (repeat apply Rmult_le_pos; lra).
    pose proof (Rle_0_sqr (w - 1)) as Q. unfold Rsqr in Q. lra. }
  lra.
Qed.

(** One dielectronic term, decreasing part. *)
Lemma term_bound : forall D A p, 0 < D <= 1.9e-3 -> 4.7e5 <= A -> 0 < p ->
  D * ((A * p - 7.5) * exp (3 / 2 * ln p - A * p)) <= 1.4e-13.
Proof.
  intros D A p HD HA P. set (u := A * p).
  assert (U : 0 < u) by (apply Rmult_lt_0_compat; lra).
  destruct (Rle_dec 7.5 u) as [G | G].
  2: { assert (0 <= D * ((7.5 - u) * exp (3 / 2 * ln p - u))).
       { apply Rmult_le_pos. lra. apply Rmult_le_pos. lra. left; apply exp_pos. } lra. }
  assert (E : exp (3 / 2 * ln p - u) = p * sqrt p * exp (- u)).
  { unfold Rminus. rewrite exp_plus. f_equal.
    replace (3 / 2 * ln p) with (ln p + / 2 * ln p) by lra. rewrite exp_plus, exp_ln by lra. f_equal.
    symmetry. rewrite <- Rpower_sqrt by lra. reflexivity. }
  rewrite E.
  assert (P1 : p <= u / 4.7e5).
  { assert (4.7e5 * p <= A * p) by (apply Rmult_le_compat_r; lra). fold u in H. lra. }
  assert (P2 : sqrt p <= (u + 9) / 4110).
  { apply Rsqr_incr_0_var; [|lra]. unfold Rsqr. rewrite sqrt_sqrt by lra.
    apply Rle_trans with (u / 4.7e5); auto.
    assert (0 <= (u - 9) * (u - 9)) by (pose proof (Rle_0_sqr (u - 9)); unfold Rsqr in *; lra). lra. }
  pose proof (sqrt_pos p). pose proof (exp_pos (- u)). pose proof (tail_bound u G) as TB.
  assert (X : p * sqrt p <= u / 4.7e5 * ((u + 9) / 4110)) by (apply Rmult_le_compat; lra).
  assert (X0 : 0 <= p * sqrt p) by (apply Rmult_le_pos; lra).
  assert (Y : D * (p * sqrt p) <= 1e-12 * (u * (u + 9))).
  { apply Rle_trans with (1.9e-3 * (u / 4.7e5 * ((u + 9) / 4110))). apply Rmult_le_compat; lra.
    assert (0 <= u * (u + 9)) by (apply Rmult_le_pos; lra). lra. }
  replace (D * ((u - 7.5) * (p * sqrt p * exp (- u)))) with (D * (p * sqrt p) * ((u - 7.5) * exp (- u))) by ring.
  assert (0 <= (u - 7.5) * exp (- u)) by (apply Rmult_le_pos; lra).
  apply Rle_trans with (1e-12 * (u * (u + 9)) * ((u - 7.5) * exp (- u))).
  apply Rmult_le_compat_r; lra. lra.
Qed.

Section rec.
  Variables (al : R -> R) (dom : R -> Prop) (D A B : R).
  Hypothesis HD : 0 < D <= 1.9e-3.
  Hypothesis HA : 4.7e5 <= A.
  Hypothesis HB : 0 < B.
  Hypothesis anti : forall t t', 0 < t' -> t' < t -> dom t -> al t <= al t'.
  Hypothesis pos : forall t, 0 < t -> 0 <= al t.
  Let t0 := (A + B) / 7.5.
  Hypothesis dom0 : dom t0.
  Hypothesis low : 4.8e-14 <= al t0.

  Let rec t := al t + D / Rpower t 1.5 * exp (- A / t) * (1 + 0.3 * exp (- B / t)).
  Let G p := exp (7.5 * ln p - A * p) + 0.3 * exp (7.5 * ln p - (A + B) * p).

  Lemma rec_form : forall t, 0 < t -> rec t * exp (6 * ln (/ t)) = al t * exp (6 * ln (/ t)) + D * G (/ t).
  Proof.
    intros t T. unfold rec, G. rewrite Rmult_plus_distr_r. f_equal.
    unfold Rdiv at 1. unfold Rpower. rewrite <- exp_Ropp. rewrite ln_Rinv by auto.
    replace (7.5 * - ln t - A * / t) with (- (1.5 * ln t) + 6 * - ln t + - A / t) by lra.
    replace (7.5 * - ln t - (A + B) * / t) with (- (1.5 * ln t) + 6 * - ln t + - A / t + - B / t) by lra.
    rewrite !exp_plus. ring.
  Qed.

  Lemma G_pos : forall p, 0 < G p.
  Proof. intros. unfold G. pose proof (exp_pos (7.5 * ln p - A * p)). pose proof (exp_pos (7.5 * ln p - (A + B) * p)). lra. Qed.

  Lemma power_incr : forall K p q, 0 < p -> p <= q -> K * q <= 7.5 -> 0 < K ->
    exp (7.5 * ln p - K * p) <= exp (7.5 * ln q - K * q).
  Proof.
    intros K p q P Q M HK. apply exp_le.
    apply (incr (fun p => 7.5 * ln p - K * p) (fun p => 7.5 * / p - K)); auto.
    - intros x X. auto_derive. lra. field. lra.
    - intros x X. assert (K * x <= K * q) by (apply Rmult_le_compat_l; lra).
      apply Rmult_le_reg_r with x. lra. replace ((7.5 * / x - K) * x) with (7.5 - K * x) by (field; lra). lra.
  Qed.

  Lemma t0_pos : 0 < t0.
  Proof. unfold t0. lra. Qed.

  (** hot gas *)
  Lemma rec_hot : forall t t', t0 <= t' -> t' < t -> dom t -> rec t * exp (6 * ln (/ t)) <= rec t' * exp (6 * ln (/ t')).
  Proof.
    intros t t' H0 T DT. pose proof t0_pos. rewrite !rec_form by lra.
    assert (I : 0 < / t < / t').
    { split. apply Rinv_0_lt_compat; lra. apply Rinv_lt_contravar; auto. apply Rmult_lt_0_compat; lra. }
    assert (I0 : (A + B) * / t' <= 7.5).
    { apply Rmult_le_reg_r with t'. lra. rewrite Rmult_assoc, Rinv_l by lra. unfold t0 in *. lra. }
    assert (I1 : A * / t' <= 7.5).
    { assert (0 <= B * / t') by (apply Rmult_le_pos; lra). lra. }
    pose proof (power_incr A (/ t) (/ t') ltac:(lra) ltac:(lra) I1 ltac:(lra)).
    pose proof (power_incr (A + B) (/ t) (/ t') ltac:(lra) ltac:(lra) I0 ltac:(lra)).
    assert (GG : D * G (/ t) <= D * G (/ t')) by (apply Rmult_le_compat_l; unfold G; lra).
    assert (AA : al t * exp (6 * ln (/ t)) <= al t' * exp (6 * ln (/ t'))).
    { apply Rmult_le_compat. apply pos; lra. left; apply exp_pos. apply anti; auto; lra.
      apply exp_le. pose proof (ln_le' (/ t) (/ t') ltac:(lra) ltac:(lra)). lra. }
    lra.
  Qed.

  (** cold gas *)
  Lemma rec_cold : forall t t', 0 < t' -> t' < t -> t <= t0 -> dom t -> rec t * exp (6 * ln (/ t)) <= rec t' * exp (6 * ln (/ t')).
  Proof.
    intros t t' T' T H0 DT. rewrite !rec_form by lra.
    assert (I : 0 < / t < / t').
    { split. apply Rinv_0_lt_compat; lra. apply Rinv_lt_contravar; auto. apply Rmult_lt_0_compat; lra. }
    set (c := al t0) in *. pose proof t0_pos as TP.
    assert (M : c * exp (6 * ln (/ t)) + D * G (/ t) <= c * exp (6 * ln (/ t')) + D * G (/ t')).
    { apply (incr (fun p => c * exp (6 * ln p) + D * G p)
        (fun p => exp (6 * ln p) * / p * (6 * c - D * ((A * p - 7.5) * exp (3 / 2 * ln p - A * p))
            - 0.3 * (D * (((A + B) * p - 7.5) * exp (3 / 2 * ln p - (A + B) * p)))))).
      - lra.
      - intros p P. unfold G. auto_derive. lra.
        replace (7.5 * ln p - A * p) with (6 * ln p + (3 / 2 * ln p - A * p)) by lra.
        replace (7.5 * ln p - (A + B) * p) with (6 * ln p + (3 / 2 * ln p - (A + B) * p)) by lra.
        replace (7.5 * ln p + - (A * p)) with (6 * ln p + (3 / 2 * ln p - A * p)) by lra.
        replace (7.5 * ln p + - ((A + B) * p)) with (6 * ln p + (3 / 2 * ln p - (A + B) * p)) by lra.
        rewrite !exp_plus.
        set (x := exp (6 * ln p)). set (y := exp (3 / 2 * ln p - A * p)). set (z := exp (3 / 2 * ln p - (A + B) * p)).
        replace 7.5 with (15 / 2) by lra. replace 0.3 with (3 / 10) by lra. field. lra.
      - intros p P. apply Rmult_le_pos. apply Rmult_le_pos. left; apply exp_pos. left; apply Rinv_0_lt_compat; lra.
        pose proof (term_bound D A p HD HA ltac:(lra)).
        pose proof (term_bound D (A + B) p HD ltac:(lra) ltac:(lra)). lra. }
    assert (C1 : c <= al t).
    { destruct H0 as [H0 | ->]; [|unfold c; lra]. apply anti; auto; lra. }
    assert (C2 : al t <= al t') by (apply anti; auto; lra).
    assert (AA : (al t - c) * exp (6 * ln (/ t)) <= (al t' - c) * exp (6 * ln (/ t'))).
    { apply Rmult_le_compat; try lra. left; apply exp_pos.
      apply exp_le. pose proof (ln_le' (/ t) (/ t') ltac:(lra) ltac:(lra)). lra. }
    lra.
  Qed.

  Lemma rec_six : forall t t', 0 < t' -> t' < t -> dom t -> (forall s, 0 < s < t -> dom s) ->
    rec t <= rec t' * exp (6 * ln (t / t')).
  Proof.
    intros t t' T' T DT DD. pose proof t0_pos.
    assert (M : rec t * exp (6 * ln (/ t)) <= rec t' * exp (6 * ln (/ t'))).
    { destruct (Rle_dec t t0). apply rec_cold; auto.
      destruct (Rle_dec t0 t'). apply rec_hot; auto.
      apply Rle_trans with (rec t0 * exp (6 * ln (/ t0))).
      apply rec_hot; auto; lra. apply rec_cold; auto; lra. }
    rewrite !ln_Rinv in M by lra. rewrite ln_quot by lra.
    apply Rmult_le_reg_r with (exp (6 * - ln t)). apply exp_pos.
    rewrite Rmult_assoc, <- exp_plus.
    replace (6 * (ln t - ln t') + 6 * - ln t) with (6 * - ln t') by lra. exact M.
  Qed.
End rec.

(** ** The tables *)

Lemma two_pow : forall a b (k m : nat) e, 0 < a -> a <= 2 ^ k -> 0 <= e -> INR k * e <= INR m -> b = 2 ^ m -> Rpower a e <= b.
Proof.
  intros a b k m e A AK E KM ->. apply Rle_trans with (Rpower (2 ^ k) e). now apply Rpower_incr.
  rewrite <- !Rpower_pow by lra. rewrite Rpower_mult. apply Rle_Rpower; lra.
Qed.

Lemma cen_rec : forall n t t', recomb n = cen92 -> 0 < t' -> t' < t -> recHep n t <= recHep n t' * exp (6 * ln (t / t')).
Proof.
  intros n t t' N T' T. unfold recHep. rewrite N. cbn [alphaHep alphad cen92]. unfold cen_alphad.
  replace (- 4.7e5 / t) with (- (4.7e5) / t) by lra. replace (- 4.7e5 / t') with (- (4.7e5) / t') by lra.
  replace (- 9.4e4 / t) with (- (9.4e4) / t) by lra. replace (- 9.4e4 / t') with (- (9.4e4) / t') by lra.
  apply (rec_six cen_alphaHep (fun _ => True) 1.9e-3 4.7e5 9.4e4); auto; try lra.
  - intros. now apply cen_alphaHep_anti.
  - intros. left. unfold cen_alphaHep. apply Rdiv_pos. lra. apply Rpower_pos.
  - unfold cen_alphaHep.
    assert (P : Rpower ((4.7e5 + 9.4e4) / 7.5) 0.6353 <= 2048).
    { apply (two_pow _ _ 17 11); try lra; simpl INR; lra. }
    apply Rle_trans with (1.5e-10 / 2048). lra. apply div_anti; auto. lra. apply Rpower_pos.
Qed.

Lemma verner_low : forall t aa bb t0 t1 s0 s1 q k m, 0 < t -> 0 < aa -> 0 <= bb <= 1 -> 0 < t0 -> 0 < t1 ->
  0 <= s0 -> 0 <= s1 -> t / t0 <= s0 * s0 -> t / t1 <= s1 * s1 -> 1 + s0 <= 2 ^ k -> INR k * (1 - bb) <= INR m -> q = 2 ^ m ->
  aa / (s0 * q * ((1 + s1) * (1 + s1))) <= verner_fit t aa bb t0 t1.
Proof.
  intros t aa bb t0 t1 s0 s1 q k m T A B T0 T1 S0 S1 H0 H1 K M ->. unfold verner_fit.
  assert (X0 : 0 < sqrt (t / t0) <= s0).
  { split. apply sqrt_lt_R0. now apply Rdiv_pos. rewrite <- (sqrt_square s0) by lra. now apply sqrt_le_1_alt. }
  assert (X1 : 0 < sqrt (t / t1) <= s1).
  { split. apply sqrt_lt_R0. now apply Rdiv_pos. rewrite <- (sqrt_square s1) by lra. now apply sqrt_le_1_alt. }
  pose proof (Rpower_pos (1 + sqrt (t / t0)) (1 - bb)). pose proof (Rpower_pos (1 + sqrt (t / t1)) (1 + bb)).
  apply div_anti. lra. repeat apply Rmult_lt_0_compat; lra.
  apply Rmult_le_compat; try lra. apply Rmult_le_pos; lra.
  - apply Rmult_le_compat; try lra. apply (two_pow _ _ k m); auto; lra.
  - apply Rle_trans with (Rpower (1 + s1) (1 + bb)). apply Rpower_incr; lra.
    apply Rle_trans with (Rpower (1 + s1) 2). apply Rle_Rpower; lra.
    replace 2 with (1 + 1) by lra. rewrite Rpower_plus, Rpower_1 by lra. lra.
Qed.

Lemma verner_rec : forall n t t', recomb n = verner96 -> 0 < t' -> t' < t -> t < 6e5 ->
  recHep n t <= recHep n t' * exp (6 * ln (t / t')).
Proof.
  intros n t t' N T' T M. unfold recHep. rewrite N. cbn [alphaHep alphad verner96]. unfold verner_alphad.
  replace (- 4.72e5 / t) with (- (4.72e5) / t) by lra. replace (- 4.72e5 / t') with (- (4.72e5) / t') by lra.
  replace (- 9.4e4 / t) with (- (9.4e4) / t) by lra. replace (- 9.4e4 / t') with (- (9.4e4) / t') by lra.
  apply (rec_six verner_alphaHep (fun t => t < 6e5) 1.23e-3 4.72e5 9.4e4); auto; try lra.
  - intros s s' S' SS DS. rewrite !verner_alphaHep_low by lra. left. apply verner_anti; lra.
  - intros. now apply verner_alphaHep_nonneg.
  - rewrite verner_alphaHep_low by lra.
    eapply Rle_trans; [| apply (verner_low _ _ _ _ _ 70 0.1 8 7 3); try lra; simpl INR; lra]. lra.
  - intros; lra.
Qed.

Lemma badnell_rec : forall n t t', recomb n = badnell -> 0 < t' -> t' < t ->
  recHep n t <= recHep n t' * exp (6 * ln (t / t')).
Proof.
  intros n t t' N T' T. unfold recHep. rewrite N. cbn [alphaHep alphad badnell]. unfold verner_alphad.
  replace (- 4.72e5 / t) with (- (4.72e5) / t) by lra. replace (- 4.72e5 / t') with (- (4.72e5) / t') by lra.
  replace (- 9.4e4 / t) with (- (9.4e4) / t) by lra. replace (- 9.4e4 / t') with (- (9.4e4) / t') by lra.
  apply (rec_six (fun t => verner_fit t 1.818e-10 0.7492 10.17 2.786e6) (fun _ => True) 1.23e-3 4.72e5 9.4e4); auto; try lra.
  - intros. left. apply verner_anti; lra.
  - intros. left. apply verner_fit_pos; lra.
  - eapply Rle_trans; [| apply (verner_low _ _ _ _ _ 87 0.2 4 7 2); try lra; simpl INR; lra]. lra.
Qed.

(** What a table does between two temperatures. *)
Definition response (n : network) (t t' : R) : Prop :=
  alphaHp (recomb n) t < alphaHp (recomb n) t' /\ alphaHepp (recomb n) t <= alphaHepp (recomb n) t' /\
  GammaeH0 (recomb n) t' <= GammaeH0 (recomb n) t /\ GammaeHe0 (recomb n) t' <= GammaeHe0 (recomb n) t /\
  GammaeHep (recomb n) t' <= GammaeHep (recomb n) t /\ recHep n t <= recHep n t' * exp (6 * ln (t / t')).

Lemma responds : forall n t t', within (recomb n) t -> 0 < t' -> t' < t -> response n t t'.
Proof.
  intros n t t' W T' T. unfold response. destruct W as [E | [[E M] | [E M]]].
  - pose proof (cen_rec n t t' E T' T) as C. rewrite E in *.
    cbn [alphaHp alphaHep alphad alphaHepp GammaeH0 GammaeHe0 GammaeHep cen92].
    pose proof (cen_alphaHp_anti t t' T' T).
    repeat split; auto; try lra; apply cen_collisional_incr; auto; lra.
  - pose proof (badnell_rec n t t' E T' T) as C. rewrite E in *.
    cbn [alphaHp alphaHep alphad alphaHepp GammaeH0 GammaeHe0 GammaeHep badnell verner96].
    pose proof (verner_anti 8.318e-11 0.7472 2.965 7.001e5 t t' ltac:(lra) ltac:(lra) ltac:(lra) ltac:(lra) ltac:(lra) T' T).
    repeat split; auto; [now apply lowcharge_anti | now apply voronov_H0 | now apply voronov_He0 | now apply voronov_Hep].
  - pose proof (verner_rec n t t' E T' T M) as C. rewrite E in *.
    cbn [alphaHp alphaHep alphad alphaHepp GammaeH0 GammaeHe0 GammaeHep verner96].
    pose proof (verner_anti 7.982e-11 0.748 3.148 7.036e+05 t t' ltac:(lra) ltac:(lra) ltac:(lra) ltac:(lra) ltac:(lra) T' T).
    pose proof (verner_anti 1.891e-10 0.7524 9.370 2.774e6 t t' ltac:(lra) ltac:(lra) ltac:(lra) ltac:(lra) ltac:(lra) T' T).
    repeat split; auto; [lra | apply voronov_H0 | apply voronov_He0 | apply voronov_Hep]; auto; lra.
Qed.

Lemma within_down : forall r t t', within r t -> t' <= t -> within r t'.
Proof. intros r t t' [H | [[H M] | [H M]]] T; [left; auto | right; left; split; auto; lra | right; right; split; auto; lra]. Qed.

Lemma within_shipped : forall r t, within r t -> shipped r.
Proof. intros r t [-> | [[-> _] | [-> _]]]; unfold shipped; auto. Qed.
