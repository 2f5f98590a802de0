(** Proofs about the rate network. *)
From Coq Require Import Reals List Bool Arith Lia Lra.
From Verif Require Import RatesModel RatesSpec.
Import ListNotations.
Local Open Scope R_scope.

Lemma ltb_true : forall a b, ltb a b = true <-> a < b.
Proof. intros a b. unfold ltb. destruct (Rlt_dec a b); split; intros; auto; try discriminate; contradiction. Qed.

Lemma ltb_false : forall a b, ltb a b = false <-> b <= a.
Proof.
  intros a b. unfold ltb. destruct (Rlt_dec a b); split; intros; auto; try discriminate; lra.
Qed.

Lemma b2r_nonneg : forall b, 0 <= b2r b.
Proof. intros []; cbn; lra. Qed.

Lemma Rpower_pos : forall a b, 0 < Rpower a b.
Proof. intros. unfold Rpower. apply exp_pos. Qed.

Lemma Rdiv_pos : forall a b, 0 < a -> 0 < b -> 0 < a / b.
Proof. intros. unfold Rdiv. apply Rmult_lt_0_compat; auto. apply Rinv_0_lt_compat; auto. Qed.

Lemma verner_fit_pos : forall t aa bb t0 t1,
  0 < t -> 0 < aa -> 0 < t0 -> 0 < verner_fit t aa bb t0 t1.
Proof.
  intros. unfold verner_fit. apply Rdiv_pos; auto.
  repeat apply Rmult_lt_0_compat; try apply Rpower_pos.
  apply sqrt_lt_R0. now apply Rdiv_pos.
Qed.

Lemma cen_collisional_pos : forall c b t, 0 < c -> 0 < t -> 0 < cen_collisional c b t.
Proof.
  intros. unfold cen_collisional. apply Rdiv_pos.
  - repeat apply Rmult_lt_0_compat; auto. now apply sqrt_lt_R0. apply exp_pos.
  - pose proof (sqrt_pos (t / 1e5)). lra.
Qed.

Lemma cen_alphaHp_pos : forall t, 0 < t -> 0 < cen_alphaHp t.
Proof.
  intros. unfold cen_alphaHp.
  apply Rdiv_pos; [apply Rdiv_pos; [apply Rdiv_pos; [lra|] | apply Rpower_pos] |].
  - now apply sqrt_lt_R0.
  - pose proof (Rpower_pos (t / 1e6) 0.7). lra.
Qed.

Lemma voronov_fit_pos : forall t dE PP AA XX KK,
  0 < t -> 0 < dE -> 0 <= PP -> 0 < AA -> 0 < XX -> 0 < voronov_fit t dE PP AA XX KK.
Proof.
  intros. unfold voronov_fit.
  assert (U : 0 < dE / (8.61734e-5 * t)).
  { apply Rdiv_pos; auto. apply Rmult_lt_0_compat; lra. }
  set (u := dE / (8.61734e-5 * t)) in *.
  repeat apply Rmult_lt_0_compat; try apply Rpower_pos; try apply exp_pos; auto.
  - assert (0 <= PP * sqrt u) by (apply Rmult_le_pos; auto; apply sqrt_pos). lra.
  - apply Rinv_0_lt_compat. lra.
Qed.

Lemma dielectronic_pos : forall c a b t, 0 < c ->
  0 < c / Rpower t 1.5 * exp (a / t) * (1 + 0.3 * exp (b / t)).
Proof.
  intros. pose proof (exp_pos (b / t)). pose proof (exp_pos (a / t)).
  repeat apply Rmult_lt_0_compat; auto; try lra.
  apply Rinv_0_lt_compat, Rpower_pos.
Qed.

(** The alphaHep of Verner is non-negative; it vanishes exactly at the two
    switching temperatures. *)
Lemma verner_alphaHep_zero : forall t, 0 < t ->
  (verner_alphaHep t = 0 <-> t = 6e5 \/ t = 8e5).
Proof.
  intros t T. unfold verner_alphaHep.
  set (low := verner_fit t 3.294e-11 0.6910 1.554e+01 3.676e+07).
  set (high := verner_fit t 9.356e-10 0.7892 4.266e-02 4.677e+06).
  assert (L : 0 < low) by (apply verner_fit_pos; lra).
  assert (H : 0 < high) by (apply verner_fit_pos; lra).
  cbv zeta. unfold ltb.
  assert (M : 6e5 < t < 8e5 ->
    0 < (low * (7e5 + 1e5 - t) + high * (t - (7e5 - 1e5))) / (2 * 1e5)).
  { intros. apply Rdiv_pos; [|lra].
    apply Rplus_lt_0_compat; apply Rmult_lt_0_compat; lra. }
  destruct (Rlt_dec t (7e5 - 1e5)); destruct (Rlt_dec (7e5 + 1e5) t);
  destruct (Rlt_dec t (7e5 + 1e5)); destruct (Rlt_dec (7e5 - 1e5) t); cbn [b2r];
  split; intros; try lra; exfalso.
Qed.

Lemma verner_alphaHep_nonneg : forall t, 0 < t -> 0 <= verner_alphaHep t.
Proof.
  intros t T. unfold verner_alphaHep.
  set (low := verner_fit t 3.294e-11 0.6910 1.554e+01 3.676e+07).
  set (high := verner_fit t 9.356e-10 0.7892 4.266e-02 4.677e+06).
  assert (L : 0 < low) by (apply verner_fit_pos; lra).
  assert (H : 0 < high) by (apply verner_fit_pos; lra).
  cbv zeta. unfold ltb.
  assert (M : 6e5 < t < 8e5 ->
    0 < (low * (7e5 + 1e5 - t) + high * (t - (7e5 - 1e5))) / (2 * 1e5)).
  { intros. apply Rdiv_pos; [|lra].
    apply Rplus_lt_0_compat; apply Rmult_lt_0_compat; lra. }
  destruct (Rlt_dec t (7e5 - 1e5)); destruct (Rlt_dec (7e5 + 1e5) t);
  destruct (Rlt_dec t (7e5 + 1e5)); destruct (Rlt_dec (7e5 - 1e5) t); cbn [b2r]; lra.
Qed.

(** What the network needs of a table. *)
Definition good (r : rates) : Prop := forall t, 0 < t ->
  0 < alphaHp r t /\ 0 <= alphaHep r t /\ 0 < alphad r t /\ 0 < alphaHepp r t /\
  0 < GammaeH0 r t /\ 0 < GammaeHe0 r t /\ 0 < GammaeHep r t.

Lemma good_cen92 : good cen92.
Proof.
  intros t T. cbn [alphaHp alphaHep alphad alphaHepp GammaeH0 GammaeHe0 GammaeHep cen92].
  pose proof (cen_alphaHp_pos t T).
  repeat split; auto; try (apply cen_collisional_pos; lra); try lra.
  - unfold cen_alphaHep. left. apply Rdiv_pos. lra. apply Rpower_pos.
  - unfold cen_alphad. apply dielectronic_pos; lra.
Qed.

Lemma good_verner96 : good verner96.
Proof.
  intros t T. cbn [alphaHp alphaHep alphad alphaHepp GammaeH0 GammaeHe0 GammaeHep verner96].
  repeat split; try (apply verner_fit_pos; lra); try (apply voronov_fit_pos; lra).
  - now apply verner_alphaHep_nonneg.
  - unfold verner_alphad. apply dielectronic_pos; lra.
Qed.

Lemma good_badnell : good badnell.
Proof.
  intros t T. destruct (good_verner96 t T) as (_ & _ & D & _ & A & B & C).
  cbn [alphaHp alphaHep alphad alphaHepp GammaeH0 GammaeHe0 GammaeHep badnell].
  repeat split; auto; try (apply verner_fit_pos; lra).
  left; apply verner_fit_pos; lra.
Qed.

Definition shipped (r : rates) : Prop := r = cen92 \/ r = verner96 \/ r = badnell.

Lemma good_shipped : forall r, shipped r -> good r.
Proof.
  intros r [-> | [-> | ->]]; [apply good_cen92 | apply good_verner96 | apply good_badnell].
Qed.

(** ** Self shielding and the photoionisation factor *)

Lemma Rpower_neg_lt1 : forall a b, 1 < a -> b < 0 -> Rpower a b < 1.
Proof.
  intros. rewrite <- (Rpower_O a) by lra. apply Rpower_lt; lra.
Qed.

Lemma self_shield_dens_pos : forall n t, 0 < self_shield_dens n t.
Proof.
  intros. unfold self_shield_dens.
  repeat first [apply Rpower_pos | lra | apply Rmult_lt_0_compat].
Qed.

Lemma shield_formula : forall u, 0 < u ->
  0 < 0.98 * Rpower (1 + Rpower u 1.64) (-2.28) + 0.02 * Rpower (1 + u) (-0.84) < 1.
Proof.
  intros u U.
  pose proof (Rpower_pos u 1.64).
  pose proof (Rpower_neg_lt1 (1 + Rpower u 1.64) (-2.28) ltac:(lra) ltac:(lra)).
  pose proof (Rpower_neg_lt1 (1 + u) (-0.84) ltac:(lra) ltac:(lra)).
  pose proof (Rpower_pos (1 + Rpower u 1.64) (-2.28)).
  pose proof (Rpower_pos (1 + u) (-0.84)). lra.
Qed.

Lemma self_shield_corr_range : forall n nh t, 0 < nh ->
  0 < self_shield_corr n nh t <= 1.
Proof.
  intros n nh t N. unfold self_shield_corr. destruct (selfshield n); [|lra].
  pose proof (self_shield_dens_pos n t) as D. cbv zeta.
  set (s := 1.003 * self_shield_dens n t).
  assert (S0 : 0 < s) by (unfold s; lra).
  pose proof (shield_formula (nh / s) (Rdiv_pos _ _ N S0)). lra.
Qed.

Lemma photofac_nonneg : forall n x nh t, 0 <= photo_factor n -> 0 < nh ->
  0 <= photofac n x nh t.
Proof.
  intros n x nh t P N. unfold photofac. destruct (Rlt_dec 1e-40 x); [|lra].
  pose proof (self_shield_corr_range n nh t N).
  apply Rmult_le_pos. apply Rmult_le_pos; lra.
  left. apply Rinv_0_lt_compat, Rmult_lt_0_compat; lra.
Qed.

Lemma photofac_mult : forall n x nh t, 0 < nh -> 1e-40 < x ->
  photofac n x nh t * (x * nh) = photo_factor n * self_shield_corr n nh t.
Proof.
  intros n x nh t N X. unfold photofac. destruct (Rlt_dec 1e-40 x); [|contradiction].
  field. lra.
Qed.

Lemma photofac_decr : forall n x x' nh t, 0 < photo_factor n -> 0 < nh ->
  1e-40 < x -> x < x' -> photofac n x' nh t < photofac n x nh t.
Proof.
  intros n x x' nh t P N X X'. unfold photofac.
  destruct (Rlt_dec 1e-40 x); [|contradiction]. destruct (Rlt_dec 1e-40 x'); [|lra].
  pose proof (self_shield_corr_range n nh t N).
  unfold Rdiv. apply Rmult_lt_compat_l. apply Rmult_lt_0_compat; lra.
  apply Rinv_lt_contravar. repeat apply Rmult_lt_0_compat; lra.
  apply Rmult_lt_compat_r; lra.
Qed.

Lemma gpos : forall n, 0 < gH0 n /\ 0 < gHe0 n /\ 0 < gHep n.
Proof. intros. repeat split; apply Rpower_pos. Qed.

(** ** The fractions *)

Section fractions.
  Variables (n : network) (nh t x : R).
  Hypothesis GOOD : good (recomb n).
  Hypothesis PF : 0 <= photo_factor n.
  Hypothesis NH : 0 < nh.
  Hypothesis TT : 0 < t.

  Lemma nH0_range : 0 < nH0 n nh t x <= 1.
  Proof.
    unfold nH0. destruct (GOOD t TT) as (A & _ & _ & _ & B & _).
    pose proof (photofac_nonneg n x nh t PF NH). destruct (gpos n) as (g & _).
    assert (0 <= gH0 n * photofac n x nh t) by (apply Rmult_le_pos; lra).
    assert (0 <= b2r (collisional n) * GammaeH0 (recomb n) t)
      by (apply Rmult_le_pos; [apply b2r_nonneg | lra]).
    split. apply Rdiv_pos; lra.
    apply Rmult_le_reg_r with (alphaHp (recomb n) t
      + b2r (collisional n) * GammaeH0 (recomb n) t + gH0 n * photofac n x nh t); [lra|].
    unfold Rdiv. rewrite Rmult_assoc, Rinv_l by lra. lra.
  Qed.

  Lemma recHep_pos : 0 < recHep n t.
  Proof. unfold recHep. destruct (GOOD t TT) as (_ & A & B & _). lra. Qed.

  Lemma ionHe0_nonneg : 0 <= ionHe0 n nh t x.
  Proof.
    unfold ionHe0. destruct (GOOD t TT) as (_ & _ & _ & _ & _ & A & _).
    pose proof (photofac_nonneg n x nh t PF NH). destruct (gpos n) as (_ & g & _).
    apply Rplus_le_le_0_compat; apply Rmult_le_pos; try lra. apply b2r_nonneg.
  Qed.

  Lemma ionHep_nonneg : 0 <= ionHep n nh t x.
  Proof.
    unfold ionHep. destruct (GOOD t TT) as (_ & _ & _ & _ & _ & _ & A).
    pose proof (photofac_nonneg n x nh t PF NH). destruct (gpos n) as (_ & _ & g).
    apply Rplus_le_le_0_compat; apply Rmult_le_pos; try lra. apply b2r_nonneg.
  Qed.

  (** He0 is ionised by collisions, or by photons *)
  Lemma ionHe0_pos :
    collisional n = true \/ (0 < photo_factor n /\ 1e-40 < x) -> 0 < ionHe0 n nh t x.
  Proof.
    intros C. unfold ionHe0. destruct (GOOD t TT) as (_ & _ & _ & _ & _ & A & _).
    pose proof (photofac_nonneg n x nh t PF NH). destruct (gpos n) as (_ & g & _).
    assert (0 <= gHe0 n * photofac n x nh t) by (apply Rmult_le_pos; lra).
    destruct C as [-> | [P X]]; cbn [b2r]; [lra|].
    assert (0 < photofac n x nh t).
    { unfold photofac. destruct (Rlt_dec 1e-40 x); [|contradiction].
      pose proof (self_shield_corr_range n nh t NH).
      apply Rdiv_pos; apply Rmult_lt_0_compat; lra. }
    assert (0 < gHe0 n * photofac n x nh t) by (now apply Rmult_lt_0_compat).
    assert (0 <= b2r (collisional n) * GammaeHe0 (recomb n) t)
      by (apply Rmult_le_pos; [apply b2r_nonneg | lra]). lra.
  Qed.

  Let a := recHep n t / ionHe0 n nh t x.
  Let b := ionHep n nh t x / alphaHepp (recomb n) t.

  Lemma b_nonneg : 0 <= b.
  Proof.
    unfold b. destruct (GOOD t TT) as (_ & _ & _ & A & _). pose proof ionHep_nonneg.
    apply Rmult_le_pos; auto. left; now apply Rinv_0_lt_compat.
  Qed.

  Lemma nHep_range : 0 <= nHep n nh t x /\ 0 <= nHepp n nh t x
    /\ nHep n nh t x + nHepp n nh t x <= 1.
  Proof.
    pose proof b_nonneg as B. unfold nHepp, Rdiv. rewrite Rmult_assoc.
    change (ionHep n nh t x * / alphaHepp (recomb n) t) with b.
    unfold nHep. destruct (Req_EM_T (ionHe0 n nh t x) 0) as [Z | Z].
    - lra.
    - change (ionHep n nh t x / alphaHepp (recomb n) t) with b.
      change (recHep n t / ionHe0 n nh t x) with a.
      assert (A : 0 < a).
      { unfold a. apply Rdiv_pos. apply recHep_pos. pose proof ionHe0_nonneg. lra. }
      assert (0 < / (1 + a + b)) by (apply Rinv_0_lt_compat; lra).
      unfold Rdiv. rewrite Rmult_1_l. split; [lra|]. split; [apply Rmult_le_pos; lra|].
      replace (/ (1 + a + b) + / (1 + a + b) * b) with ((1 + b) * / (1 + a + b)) by ring.
      apply Rmult_le_reg_r with (1 + a + b); [lra|].
      rewrite Rmult_assoc, Rinv_l by lra. lra.
  Qed.

  Lemma nHe_sum : 0 < ionHe0 n nh t x -> exists he0, nHe0 n nh t x = Some he0 /\
    0 <= he0 /\ he0 + nHep n nh t x + nHepp n nh t x = 1 /\
    he0 * ionHe0 n nh t x = nHep n nh t x * recHep n t.
  Proof.
    intros I. unfold nHe0. destruct (Req_EM_T (ionHe0 n nh t x) 0) as [Z | Z]; [lra|].
    pose proof nHep_range as (H & H2 & _).
    eexists; split; [reflexivity|]. split; [|split].
    - apply Rmult_le_pos. apply Rmult_le_pos; auto. left; apply recHep_pos.
      left; now apply Rinv_0_lt_compat.
    - unfold nHepp. unfold nHep. destruct (Req_EM_T (ionHe0 n nh t x) 0); [contradiction|].
      destruct (GOOD t TT) as (_ & _ & _ & A & _). pose proof recHep_pos. pose proof ionHep_nonneg.
      field. repeat split; try lra.
      assert (0 < ionHe0 n nh t x * alphaHepp (recomb n) t) by (now apply Rmult_lt_0_compat).
      assert (0 < recHep n t * alphaHepp (recomb n) t) by (now apply Rmult_lt_0_compat).
      assert (0 <= ionHep n nh t x * ionHe0 n nh t x) by (apply Rmult_le_pos; lra).
      lra.
    - field. lra.
  Qed.

  Lemma nHepp_balance :
    nHepp n nh t x * alphaHepp (recomb n) t = nHep n nh t x * ionHep n nh t x.
  Proof.
    unfold nHepp. destruct (GOOD t TT) as (_ & _ & _ & A & _). field. lra.
  Qed.

  Lemma nebynh_range : forall helium, 0 <= helium < 1 ->
    0 <= nebynh n nh t x helium <= 1 + 2 * yy helium.
  Proof.
    intros helium H. unfold nebynh, nHp.
    assert (Y : 0 <= yy helium).
    { unfold yy. apply Rmult_le_pos. lra. left; apply Rinv_0_lt_compat; lra. }
    pose proof nH0_range. pose proof nHep_range as (A & B & C).
    assert (0 <= yy helium * nHep n nh t x) by (now apply Rmult_le_pos).
    assert (0 <= yy helium * nHepp n nh t x) by (now apply Rmult_le_pos).
    assert (yy helium * (nHep n nh t x + nHepp n nh t x) <= yy helium * 1)
      by (now apply Rmult_le_compat_l).
    lra.
  Qed.
End fractions.

Lemma C38_fractions_aux : forall n nh t x helium,
  shipped (recomb n) -> 0 <= photo_factor n -> 0 < nh -> 0 < t -> 0 <= helium < 1 ->
  (collisional n = true \/ (0 < photo_factor n /\ 1e-40 < x)) ->
  fraction (nH0 n nh t x) /\ fraction (nHp n nh t x) /\
  nH0 n nh t x + nHp n nh t x = 1 /\
  (exists he0, nHe0 n nh t x = Some he0 /\ fraction he0 /\
     fraction (nHep n nh t x) /\ fraction (nHepp n nh t x) /\
     he0 + nHep n nh t x + nHepp n nh t x = 1) /\
  nebynh n nh t x helium
    = nHp n nh t x + helium / (4 * (1 - helium)) * (nHep n nh t x + 2 * nHepp n nh t x) /\
  0 <= nebynh n nh t x helium <= 1 + helium / (2 * (1 - helium)).
Proof.
  intros n nh t x helium SH P N T H C. pose proof (good_shipped _ SH) as G.
  pose proof (nH0_range n nh t x G P N T).
  pose proof (nHep_range n nh t x G P N T) as (A & B & D).
  destruct (nHe_sum n nh t x G P N T (ionHe0_pos n nh t x G P N T C)) as (he0 & E & F & K & _).
  pose proof (nebynh_range n nh t x G P N T helium H) as Q.
  unfold fraction, nHp. split; [lra|]. split; [lra|]. split; [lra|]. split; [|split].
  - exists he0. repeat split; auto; lra.
  - unfold nebynh, nHp, yy. field. lra.
  - replace (helium / (2 * (1 - helium))) with (2 * yy helium); auto.
    unfold yy. field. lra.
Qed.

Lemma scaled : forall u v p q : R, 0 < p -> u * p = v * q -> u = v * q / p.
Proof. intros u v p q P E. rewrite <- E. field. lra. Qed.

Lemma hydrogen_unique : forall ne alpha coll photo a b,
  0 < ne -> 0 < alpha -> 0 <= coll -> 0 <= photo ->
  hydrogen_balance ne alpha coll photo a b ->
  a = alpha * ne / (alpha * ne + (photo + coll * ne)).
Proof.
  intros ne alpha coll photo a b N A C P [S1 E].
  assert (0 <= coll * ne) by (apply Rmult_le_pos; lra).
  assert (0 < alpha * ne) by (now apply Rmult_lt_0_compat).
  assert (b = 1 - a) as -> by lra.
  assert (K : a * (alpha * ne + (photo + coll * ne)) = 1 * (alpha * ne)).
  { replace (a * (alpha * ne + (photo + coll * ne)))
      with (a * (photo + coll * ne) + a * (alpha * ne)) by ring. rewrite E. ring. }
  apply scaled in K; [|lra]. rewrite Rmult_1_l in K. exact K.
Qed.

Lemma helium_unique : forall ne r1 r2 c0 c1 p0 p1 a b c a' b' c',
  0 < ne -> 0 < r1 -> 0 < r2 -> 0 < p0 + c0 * ne -> 0 <= p1 + c1 * ne ->
  helium_balance ne r1 r2 c0 c1 p0 p1 a b c ->
  helium_balance ne r1 r2 c0 c1 p0 p1 a' b' c' -> a = a' /\ b = b' /\ c = c'.
Proof.
  intros ne r1 r2 c0 c1 p0 p1 a b c a' b' c' N R1 R2 P0 P1 (S1 & E1 & F1) (S2 & E2 & F2).
  set (i0 := p0 + c0 * ne) in *. set (i1 := p1 + c1 * ne) in *.
  assert (Q1 : 0 < r1 * ne) by (now apply Rmult_lt_0_compat).
  assert (Q2 : 0 < r2 * ne) by (now apply Rmult_lt_0_compat).
  rewrite Rmult_assoc in E1, F1, E2, F2.
  assert (A : a = b * (r1 * ne) / i0) by (apply scaled; auto).
  assert (A' : a' = b' * (r1 * ne) / i0) by (apply scaled; auto).
  assert (C : c = b * i1 / (r2 * ne)) by (apply scaled; auto; symmetry; exact F1).
  assert (C' : c' = b' * i1 / (r2 * ne)) by (apply scaled; auto; symmetry; exact F2).
  set (k := r1 * ne / i0 + 1 + i1 / (r2 * ne)).
  assert (K : 0 < k).
  { unfold k. assert (0 < r1 * ne / i0) by (now apply Rdiv_pos).
    assert (0 <= i1 / (r2 * ne)) by (apply Rmult_le_pos; auto; left; now apply Rinv_0_lt_compat).
    lra. }
  assert (B : b * k = 1) by (transitivity (a + b + c); [rewrite A, C; unfold k; field; lra | exact S1]).
  assert (B' : b' * k = 1) by (transitivity (a' + b' + c'); [rewrite A', C'; unfold k; field; lra | exact S2]).
  assert (b = b') by (apply Rmult_eq_reg_r with k; lra).
  subst b'. rewrite A, A', C, C'. auto.
Qed.

Lemma C38_equilibrium_aux : forall n nh t x,
  shipped (recomb n) -> 0 < photo_factor n -> 0 < nh -> 0 < t -> 1e-40 < x ->
  exists shield, 0 < shield <= 1 /\ (selfshield n = false -> shield = 1) /\
  let ne := x * nh in
  let r := recomb n in
  let coll := if collisional n then 1 else 0 in
  let photo g := g * photo_factor n * shield in
  (forall a b,
     hydrogen_balance ne (alphaHp r t) (coll * GammaeH0 r t) (photo (gH0 n)) a b <->
     a = nH0 n nh t x /\ b = nHp n nh t x) /\
  (forall a b c,
     helium_balance ne (alphaHep r t + alphad r t) (alphaHepp r t)
       (coll * GammaeHe0 r t) (coll * GammaeHep r t)
       (photo (gHe0 n)) (photo (gHep n)) a b c <->
     Some a = nHe0 n nh t x /\ b = nHep n nh t x /\ c = nHepp n nh t x).
Proof.
  intros n nh t x SH P N T X. pose proof (good_shipped _ SH) as G.
  pose proof (self_shield_corr_range n nh t N) as SC.
  exists (self_shield_corr n nh t). split; [exact SC|]. split.
  { intros E. unfold self_shield_corr. now rewrite E. }
  cbv zeta. change (if collisional n then 1 else 0) with (b2r (collisional n)).
  pose proof (photofac_mult n x nh t N X) as M.
  assert (NE : 0 < x * nh) by (apply Rmult_lt_0_compat; lra).
  destruct (G t T) as (A1 & A2 & A3 & A4 & B1 & B2 & B3).
  destruct (gpos n) as (g1 & g2 & g3).
  assert (PH : forall g, g * photo_factor n * self_shield_corr n nh t
                = g * photofac n x nh t * (x * nh)).
  { intros g. rewrite (Rmult_assoc _ (photofac n x nh t)), M. ring. }
  pose proof (photofac_nonneg n x nh t (Rlt_le _ _ P) N) as FN.
  assert (D : 0 <= b2r (collisional n) * GammaeH0 (recomb n) t)
    by (apply Rmult_le_pos; [apply b2r_nonneg | lra]).
  assert (F : 0 <= gH0 n * photofac n x nh t) by (apply Rmult_le_pos; lra).
  split.
  - intros a b. split.
    + intros B. pose proof B as [S1 _].
      apply hydrogen_unique in B; auto; [|rewrite PH; apply Rmult_le_pos; lra].
      assert (a = nH0 n nh t x).
      { rewrite B, PH. unfold nH0.
        replace (alphaHp (recomb n) t * (x * nh) + (gH0 n * photofac n x nh t * (x * nh)
          + b2r (collisional n) * GammaeH0 (recomb n) t * (x * nh)))
          with ((alphaHp (recomb n) t + b2r (collisional n) * GammaeH0 (recomb n) t
             + gH0 n * photofac n x nh t) * (x * nh)) by ring.
        set (q := x * nh) in *.
        set (w := alphaHp (recomb n) t + b2r (collisional n) * GammaeH0 (recomb n) t
             + gH0 n * photofac n x nh t).
        assert (0 < w) by (unfold w; lra). field. lra. }
      split; auto. unfold nHp. lra.
    + intros [-> ->]. unfold hydrogen_balance, nHp. split; [lra|].
      rewrite PH. unfold nH0. field. lra.
  - assert (I0 : 0 < ionHe0 n nh t x)
      by (apply ionHe0_pos; auto; try lra; right; split; auto).
    pose proof (ionHep_nonneg n nh t x G (Rlt_le _ _ P) N T) as I1.
    destruct (nHe_sum n nh t x G (Rlt_le _ _ P) N T I0) as (h & E & F0 & K & Bal).
    pose proof (nHepp_balance n nh t x G T) as Bal2.
    assert (X0 : gHe0 n * photo_factor n * self_shield_corr n nh t
        + b2r (collisional n) * GammaeHe0 (recomb n) t * (x * nh)
        = ionHe0 n nh t x * (x * nh)) by (rewrite PH; unfold ionHe0; ring).
    assert (X1 : gHep n * photo_factor n * self_shield_corr n nh t
        + b2r (collisional n) * GammaeHep (recomb n) t * (x * nh)
        = ionHep n nh t x * (x * nh)) by (rewrite PH; unfold ionHep; ring).
    assert (HB : helium_balance (x * nh) (alphaHep (recomb n) t + alphad (recomb n) t)
       (alphaHepp (recomb n) t) (b2r (collisional n) * GammaeHe0 (recomb n) t)
       (b2r (collisional n) * GammaeHep (recomb n) t)
       (gHe0 n * photo_factor n * self_shield_corr n nh t)
       (gHep n * photo_factor n * self_shield_corr n nh t) h (nHep n nh t x) (nHepp n nh t x)).
    { unfold helium_balance. split; [exact K|]. rewrite X0, X1. split.
      - rewrite <- Rmult_assoc, Bal. unfold recHep. ring.
      - rewrite <- Rmult_assoc, <- Bal2. reflexivity. }
    intros a b c. split.
    + intros B. rewrite E.
      assert (RP : 0 < alphaHep (recomb n) t + alphad (recomb n) t) by lra.
      refine ((fun H => _) (helium_unique _ _ _ _ _ _ _ _ _ _ _ _ _ NE RP A4 _ _ B HB)).
      destruct H as (-> & -> & ->). auto.
      rewrite X0. now apply Rmult_lt_0_compat.
      rewrite X1. apply Rmult_le_pos; lra.
    + rewrite E. intros (EA & -> & ->). injection EA as ->. exact HB.
Qed.

(** The electron abundance implied by a temperature decreases with the
    abundance put in, so at one temperature there is one solution. *)
Lemma two_term : forall a b a' b', 0 < a < a' -> 0 <= b' <= b ->
  (1 + 2 * b') / (1 + a' + b') <= (1 + 2 * b) / (1 + a + b).
Proof.
  intros a b a' b' A B.
  apply Rmult_le_reg_r with ((1 + a' + b') * (1 + a + b)).
  apply Rmult_lt_0_compat; lra.
  replace ((1 + 2 * b') / (1 + a' + b') * ((1 + a' + b') * (1 + a + b)))
    with ((1 + 2 * b') * (1 + a + b)) by (field; lra).
  replace ((1 + 2 * b) / (1 + a + b) * ((1 + a' + b') * (1 + a + b)))
    with ((1 + 2 * b) * (1 + a' + b')) by (field; lra).
  assert (a <= a') by lra.
  assert (0 <= (b - b') * (1 + 2 * a)) by (apply Rmult_le_pos; lra).
  assert (0 <= (a' - a) * (1 + 2 * b)) by (apply Rmult_le_pos; lra).
  nra.
Qed.

Lemma C38_decreasing_aux : forall n nh t x x' helium,
  shipped (recomb n) -> 0 < photo_factor n -> 0 < nh -> 0 < t -> 0 <= helium < 1 ->
  1e-40 < x -> x < x' ->
  nebynh n nh t x' helium < nebynh n nh t x helium.
Proof.
  intros n nh t x x' helium SH P N T H X X'. pose proof (good_shipped _ SH) as G.
  pose proof (photofac_decr n x x' nh t P N X X') as D.
  pose proof (photofac_nonneg n x' nh t (Rlt_le _ _ P) N) as D0.
  destruct (G t T) as (A1 & A2 & A3 & A4 & B1 & B2 & B3).
  destruct (gpos n) as (g1 & g2 & g3).
  assert (HP : nHp n nh t x' < nHp n nh t x).
  { unfold nHp, nH0.
    assert (gH0 n * photofac n x' nh t < gH0 n * photofac n x nh t)
      by (now apply Rmult_lt_compat_l).
    assert (0 <= gH0 n * photofac n x' nh t) by (apply Rmult_le_pos; lra).
    assert (0 <= b2r (collisional n) * GammaeH0 (recomb n) t)
      by (apply Rmult_le_pos; [apply b2r_nonneg | lra]).
    apply Rplus_lt_compat_l, Ropp_lt_contravar. unfold Rdiv. apply Rmult_lt_compat_l; auto.
    apply Rinv_lt_contravar; [apply Rmult_lt_0_compat|]; lra. }
  assert (Y : 0 <= yy helium).
  { unfold yy. apply Rmult_le_pos. lra. left; apply Rinv_0_lt_compat; lra. }
  assert (I' : 0 < ionHe0 n nh t x')
    by (apply ionHe0_pos; auto; try lra; right; split; lra).
  assert (I : ionHe0 n nh t x' < ionHe0 n nh t x).
  { unfold ionHe0. apply Rplus_lt_compat_l. now apply Rmult_lt_compat_l. }
  assert (J' := ionHep_nonneg n nh t x' G (Rlt_le _ _ P) N T).
  assert (J : ionHep n nh t x' <= ionHep n nh t x).
  { unfold ionHep. apply Rplus_le_compat_l. left. now apply Rmult_lt_compat_l. }
  assert (E : forall z, 0 < ionHe0 n nh t z ->
     yy helium * nHep n nh t z + 2 * yy helium * nHepp n nh t z
     = yy helium * ((1 + 2 * (ionHep n nh t z / alphaHepp (recomb n) t))
        / (1 + recHep n t / ionHe0 n nh t z + ionHep n nh t z / alphaHepp (recomb n) t))).
  { intros z Z. unfold nHepp, nHep. destruct (Req_EM_T (ionHe0 n nh t z) 0); [lra|].
    unfold Rdiv. ring. }
  unfold nebynh. rewrite !Rplus_assoc, !E by lra.
  apply Rplus_lt_le_compat; auto. apply Rmult_le_compat_l; auto.
  pose proof (recHep_pos n t G T) as RP.
  apply two_term.
  - split. apply Rdiv_pos; lra. unfold Rdiv. apply Rmult_lt_compat_l; auto.
    apply Rinv_lt_contravar; auto. apply Rmult_lt_0_compat; lra.
  - split. apply Rmult_le_pos; auto. left; now apply Rinv_0_lt_compat.
    unfold Rdiv. apply Rmult_le_compat_r; auto. left; now apply Rinv_0_lt_compat.
Qed.

Lemma C38_unique_aux : forall n nh t x x' helium,
  shipped (recomb n) -> 0 < photo_factor n -> 0 < nh -> 0 < t -> 0 <= helium < 1 ->
  1e-40 < x -> 1e-40 < x' ->
  nebynh n nh t x helium = x -> nebynh n nh t x' helium = x' -> x = x'.
Proof.
  intros n nh t x x' helium SH P N T H X X' E E'.
  destruct (Rtotal_order x x') as [L | [L | L]]; auto; exfalso.
  - pose proof (C38_decreasing_aux n nh t x x' helium SH P N T H X L). lra.
  - pose proof (C38_decreasing_aux n nh t x' x helium SH P N T H X' L). lra.
Qed.

(** At or below the cut the photoionisation is dropped. *)
Lemma C38_cut_refuted_aux : forall n nh t x,
  shipped (recomb n) -> 0 < photo_factor n -> 0 < nh -> 0 < t -> 0 < x <= 1e-40 ->
  forall shield, 0 < shield ->
  ~ hydrogen_balance (x * nh) (alphaHp (recomb n) t)
      ((if collisional n then 1 else 0) * GammaeH0 (recomb n) t)
      (gH0 n * photo_factor n * shield) (nH0 n nh t x) (nHp n nh t x).
Proof.
  intros n nh t x SH P N T X s S0 [_ E]. pose proof (good_shipped _ SH) as G.
  destruct (G t T) as (A1 & _ & _ & _ & B1 & _). destruct (gpos n) as (g1 & _).
  change (if collisional n then 1 else 0) with (b2r (collisional n)) in E.
  assert (0 < gH0 n * photo_factor n * s) by (repeat apply Rmult_lt_0_compat; auto).
  pose proof (nH0_range n nh t x G (Rlt_le _ _ P) N T) as [Q _].
  assert (D : 0 <= b2r (collisional n) * GammaeH0 (recomb n) t)
    by (apply Rmult_le_pos; [apply b2r_nonneg | lra]).
  assert (F : nH0 n nh t x * (b2r (collisional n) * GammaeH0 (recomb n) t)
     = nHp n nh t x * alphaHp (recomb n) t).
  { unfold nHp, nH0, photofac. destruct (Rlt_dec 1e-40 x); [lra|]. field. lra. }
  rewrite <- F in E.
  assert (Z : nH0 n nh t x * (gH0 n * photo_factor n * s) = 0) by nra.
  apply Rmult_integral in Z. lra.
Qed.

(** Temperature and internal energy. *)
Lemma C38_temperature_aux : forall x u helium, 0 <= x -> 0 < u -> 0 <= helium < 1 ->
  exists t, get_temp x u helium = Some t /\ 0 < t /\
    3 / 2 * 1.38066e-16 * t * particles_per_mass x helium = u * 1e10 * 1.67262178e-24.
Proof.
  intros x u helium X U H. unfold get_temp. cbv zeta.
  set (T := (5 / 3 - 1) * 1.67262178e-24 / 1.38066e-16 *
            (4 / (1 + (3 + 4 * x) * (1 - helium)) * u * 1e10)).
  assert (0 <= x * (1 - helium)) by (apply Rmult_le_pos; lra).
  assert (D : 0 < 1 + (3 + 4 * x) * (1 - helium)) by lra.
  assert (T0 : 0 < T).
  { unfold T. apply Rmult_lt_0_compat. lra. apply Rmult_lt_0_compat; [|lra].
    apply Rmult_lt_0_compat; auto. apply Rdiv_pos; lra. }
  destruct (Rle_dec 0 T); [|lra]. exists T. split; auto. split; auto.
  unfold T, particles_per_mass. field. lra.
Qed.

(** ** The solver *)

Lemma all_close_spec : forall tol p q, length p = length q ->
  (all_close tol p q = true <-> Forall2 (fun a b => Rabs (a - b) < tol) p q).
Proof.
  intros tol. unfold all_close. induction p as [|a p IH]; intros [|b q] L; try discriminate.
  - split; auto.
  - cbn [combine forallb fst snd]. cbn [length] in L. injection L as L.
    rewrite andb_true_iff, ltb_true, IH by auto. split.
    + intros [A B]. now constructor.
    + intros F. inversion F; subst. auto.
Qed.

Lemma helper_spec : forall func xtol maxiter accel left i p0 p calls,
  helper func xtol maxiter accel left i p0 = (Value p, calls) ->
  exists q, func q = Some p /\ all_close (xtol / 2) p q = true.
Proof.
  intros func xtol maxiter accel. induction left as [|left IH]; intros i p0 p calls H.
  - discriminate.
  - cbn [helper] in H. destruct (func p0) as [p1|] eqn:E; [|discriminate].
    destruct (all_close (xtol / 2) p1 p0) eqn:C.
    + injection H as <- <-. eauto.
    + destruct (accel && (i <? maxiter / 2)%nat).
      * destruct (func p1) as [p2|] eqn:E2; [|discriminate].
        destruct (helper func xtol maxiter accel left (S i) (zip3 accelerate p0 p1 p2)) as [o c] eqn:Q.
        cbn [fst snd] in H. injection H as -> <-. eapply IH; eauto.
      * destruct (helper func xtol maxiter accel left (S i) p1) as [o c] eqn:Q.
        cbn [fst snd] in H. injection H as -> <-. eapply IH; eauto.
Qed.

Lemma helper_inv : forall (P : list R -> Prop) func xtol maxiter accel,
  (forall q r, P q -> func q = Some r -> P r) ->
  (forall q r s, P q -> func q = Some r -> func r = Some s -> P (zip3 accelerate q r s)) ->
  forall left i p0 p calls, P p0 ->
  helper func xtol maxiter accel left i p0 = (Value p, calls) ->
  exists q, P q /\ func q = Some p /\ all_close (xtol / 2) p q = true.
Proof.
  intros P func xtol maxiter accel P1 P2. induction left as [|left IH]; intros i p0 p calls P0 H.
  - discriminate.
  - cbn [helper] in H. destruct (func p0) as [p1|] eqn:E; [|discriminate].
    destruct (all_close (xtol / 2) p1 p0) eqn:C.
    + injection H as <- <-. eauto.
    + destruct (accel && (i <? maxiter / 2)%nat).
      * destruct (func p1) as [p2|] eqn:E2; [|discriminate].
        destruct (helper func xtol maxiter accel left (S i) (zip3 accelerate p0 p1 p2)) as [o c] eqn:Q.
        cbn [fst snd] in H. injection H as -> <-. eapply IH; [|eauto]. eapply P2; eauto.
      * destruct (helper func xtol maxiter accel left (S i) p1) as [o c] eqn:Q.
        cbn [fst snd] in H. injection H as -> <-. eapply IH; [|eauto]. eauto.
Qed.

Lemma helper_calls : forall func xtol maxiter accel left i p0,
  (snd (helper func xtol maxiter accel left i p0)
   <= left + (if accel then Nat.min left (maxiter / 2 - i) else 0))%nat.
Proof.
  intros func xtol maxiter accel. induction left as [|left IH]; intros i p0.
  - cbn. lia.
  - cbn [helper]. destruct (func p0) as [p1|]; [|cbn [snd]; lia].
    destruct (all_close (xtol / 2) p1 p0); [cbn [snd]; lia|].
    destruct (accel && (i <? maxiter / 2)%nat) eqn:A.
    + apply andb_true_iff in A as [-> A]. apply Nat.ltb_lt in A.
      destruct (func p1) as [p2|]; cbn [snd].
      * specialize (IH (S i) (zip3 accelerate p0 p1 p2)). lia.
      * lia.
    + cbn [snd]. specialize (IH (S i) p1). destruct accel; lia.
Qed.

(** [BadResidual] belongs to get_equilib_ne, not to the solver. *)
Lemma helper_outcome : forall func xtol maxiter accel left i p0,
  fst (helper func xtol maxiter accel left i p0) <> BadResidual.
Proof.
  intros func xtol maxiter accel. induction left as [|left IH]; intros i p0; cbn [helper]; [discriminate|].
  destruct (func p0) as [p1|]; [|discriminate].
  destruct (all_close (xtol / 2) p1 p0); [discriminate|].
  destruct (accel && (i <? maxiter / 2)%nat); cbn [fst]; auto.
  destruct (func p1); cbn [fst]; [auto|discriminate].
Qed.

Lemma helper_raised : forall (P : list R -> Prop) func xtol maxiter accel,
  (forall q, P q -> exists r, func q = Some r /\ P r) ->
  (forall q r s, P q -> func q = Some r -> func r = Some s -> P (zip3 accelerate q r s)) ->
  forall left i p0, P p0 -> fst (helper func xtol maxiter accel left i p0) <> Raised.
Proof.
  intros P func xtol maxiter accel T Z. induction left as [|left IH]; intros i p0 P0; cbn [helper]; [discriminate|].
  destruct (T _ P0) as (p1 & E1 & P1). rewrite E1.
  destruct (all_close (xtol / 2) p1 p0); [discriminate|].
  destruct (T _ P1) as (p2 & E2 & P2).
  destruct (accel && (i <? maxiter / 2)%nat); cbn [fst].
  - rewrite E2. cbn [fst]. apply IH. eauto.
  - auto.
Qed.

(** A constant function converges at once; a function that never settles does
    not. *)
Lemma C40_calls_aux : forall func x0 xtol maxiter accel,
  (snd (fixed_point func x0 xtol maxiter accel) <= maxiter + maxiter / 2)%nat /\
  (accel = false -> (snd (fixed_point func x0 xtol maxiter accel) <= maxiter)%nat).
Proof.
  intros. unfold fixed_point. pose proof (helper_calls func xtol maxiter accel maxiter 0 x0).
  split; [destruct accel; lia | intros ->; lia].
Qed.

Lemma C40_fixed_point_aux : forall func x0 xtol maxiter accel p calls,
  (forall q r, func q = Some r -> length r = length q) ->
  fixed_point func x0 xtol maxiter accel = (Value p, calls) ->
  exists q, func q = Some p /\ Forall2 (fun a b => Rabs (a - b) < xtol / 2) p q.
Proof.
  intros func x0 xtol maxiter accel p calls L H. apply helper_spec in H as (q & E & C).
  exists q. split; auto. apply all_close_spec in C; eauto.
Qed.

(** ** get_equilib_ne *)

Lemma rooted_length : forall n helium nh u xs ys,
  length nh = length xs -> length u = length xs ->
  rooted n helium nh u xs = Some ys -> length ys = length xs.
Proof.
  intros n helium. induction nh as [|h nh IH]; intros [|v u] [|x xs] ys L1 L2 H; try discriminate.
  - injection H as <-. reflexivity.
  - cbn [rooted] in H. destruct (rooted1 n helium h v x); [|discriminate].
    destruct (rooted n helium nh u xs) as [zs|] eqn:E; [|discriminate].
    injection H as <-. cbn [length] in *. f_equal. apply (IH u); [lia | lia | exact E].
Qed.

Lemma zip3_length : forall f a b c, length b = length a -> length c = length a ->
  length (zip3 f a b c) = length a.
Proof.
  intros f. induction a; intros [|] [|] L1 L2; cbn [zip3 length] in *; try discriminate; auto.
Qed.

Lemma zip3_nonneg : forall a b c, Forall (fun x => 0 <= x) c ->
  Forall (fun x => 0 <= x) (zip3 accelerate a b c).
Proof.
  induction a; intros [|y b] [|z c] F; cbn [zip3]; auto.
  inversion F; subst. constructor; auto.
  unfold accelerate. destruct (Req_EM_T (z - 2 * y + a) 0); auto.
  unfold del2. apply Rmax_r.
Qed.

Section equilib.
  Variables (n : network) (helium : R).
  Hypothesis SH : shipped (recomb n).
  Hypothesis PF : 0 <= photo_factor n.
  Hypothesis HE : 0 <= helium < 1.

  Lemma rooted1_total : forall nh u x, 0 < nh -> 0 < u -> 0 <= x ->
    exists y, rooted1 n helium nh u x = Some y /\ 0 <= y <= 1 + 2 * yy helium.
  Proof.
    intros nh u x N U X. unfold rooted1.
    destruct (C38_temperature_aux x u helium X U HE) as (t & -> & T & _).
    eexists; split; [reflexivity|]. apply nebynh_range; auto. now apply good_shipped.
  Qed.

  Lemma rooted_total : forall nh u xs, Forall (fun h => 0 < h) nh -> Forall (fun v => 0 < v) u ->
    Forall (fun x => 0 <= x) xs -> length nh = length xs -> length u = length xs ->
    exists ys, rooted n helium nh u xs = Some ys /\
      Forall (fun y => 0 <= y <= 1 + 2 * yy helium) ys /\ length ys = length xs.
  Proof.
    induction nh as [|h nh IH]; intros [|v u] [|x xs] N U X L1 L2; try discriminate.
    - exists []. repeat split; auto.
    - inversion N; inversion U; inversion X; subst. cbn [length] in *.
      destruct (rooted1_total h v x) as (y & E & B); auto.
      destruct (IH u xs) as (ys & F & C & D); auto.
      exists (y :: ys). cbn [rooted]. rewrite E, F. repeat split; auto. cbn [length]. lia.
  Qed.

  Lemma rooted_nth : forall nh u xs ys, length nh = length xs -> length u = length xs ->
    rooted n helium nh u xs = Some ys ->
    forall i h v x y, nth_error nh i = Some h -> nth_error u i = Some v ->
      nth_error xs i = Some x -> nth_error ys i = Some y -> rooted1 n helium h v x = Some y.
  Proof.
    induction nh as [|h0 nh IH]; intros [|v0 u] [|x0 xs] ys L1 L2 H i h v x y; try discriminate.
    - destruct i; discriminate.
    - cbn [rooted] in H. destruct (rooted1 n helium h0 v0 x0) as [y0|] eqn:E; [|discriminate].
      destruct (rooted n helium nh u xs) as [zs|] eqn:F; [|discriminate]. injection H as <-.
      destruct i as [|i]; cbn [nth_error].
      + intros A B C D. injection A as <-. injection B as <-. injection C as <-. injection D as <-. exact E.
      + apply (IH u xs zs); auto.
  Qed.
End equilib.

Lemma zip2_nth : forall f a b i z, nth_error (zip2 f a b) i = Some z ->
  exists x y, nth_error a i = Some x /\ nth_error b i = Some y /\ z = f x y.
Proof.
  intros f. induction a as [|x a IH]; intros [|y b] [|i] z H; cbn in H; try discriminate.
  - injection H as <-. exists x, y. auto.
  - apply IH in H. exact H.
Qed.

Lemma zip2_length : forall f a b, length a = length b -> length (zip2 f a b) = length b.
Proof. intros f. induction a; intros [|] L; cbn [zip2 length] in *; try discriminate; auto. Qed.

Lemma Forall2_nth_err : forall {A B} (P : A -> B -> Prop) l m, Forall2 P l m ->
  forall i x y, nth_error l i = Some x -> nth_error m i = Some y -> P x y.
Proof.
  intros A B P l m F. induction F; intros [|i] a b E1 E2; cbn in *; try discriminate.
  - injection E1 as <-. injection E2 as <-. auto.
  - eauto.
Qed.

Lemma get_equilib_inv : forall n maxi density u helium,
  shipped (recomb n) -> 0 <= photo_factor n -> 0 <= helium < 1 ->
  length density = length u ->
  Forall (fun d => 0 < d) density -> Forall (fun e => 0 < e) u ->
  match get_equilib_ne n maxi density u helium with
  | Value ne =>
      exists p q, let nh := map (fun d => d * (1 - helium)) density in
        length p = length nh /\ ne = zip2 Rmult p nh /\
        Forall (fun x => 0 <= x <= 1 + 2 * yy helium) p /\
        rooted n helium nh u p = Some q /\
        Forall2 (fun a b => Rabs (a - b) < converge n) q p
  | Raised => False
  | _ => True
  end.
Proof.
  intros n maxi density u helium SH PF HE L D U.
  set (nh := map (fun d => d * (1 - helium)) density).
  assert (N : Forall (fun h => 0 < h) nh).
  { unfold nh. apply Forall_forall. intros h I. apply in_map_iff in I as (d & <- & I).
    rewrite Forall_forall in D. specialize (D d I). apply Rmult_lt_0_compat; lra. }
  assert (LN : length nh = length u) by (unfold nh; rewrite map_length; auto).
  set (P := fun q : list R => length q = length nh /\ Forall (fun x => 0 <= x) q).
  assert (P0 : P nh).
  { split; auto. eapply Forall_impl; [|exact N]. intros; lra. }
  assert (TOT : forall q, P q -> exists r, rooted n helium nh u q = Some r /\
     length r = length q /\ Forall (fun y => 0 <= y <= 1 + 2 * yy helium) r).
  { intros q [Q1 Q2]. destruct (rooted_total n helium SH PF HE nh u q) as (r & E & F & G); auto.
    congruence. exists r. auto. }
  assert (STEP : forall q r, P q -> rooted n helium nh u q = Some r -> P r).
  { intros q r Q E. destruct (TOT q Q) as (r' & E' & LR & FR). rewrite E in E'.
    injection E' as <-. destruct Q as [Q1 _]. split; [congruence|].
    eapply Forall_impl; [|exact FR]. cbn beta. intros; lra. }
  assert (ACC : forall q r s, P q -> rooted n helium nh u q = Some r ->
     rooted n helium nh u r = Some s -> P (zip3 accelerate q r s)).
  { intros q r s Q E1 E2. pose proof (STEP _ _ Q E1) as R1. pose proof (STEP _ _ R1 E2) as S1.
    destruct Q as [Q1 Q2]. destruct R1 as [R1 _]. destruct S1 as [S1 S2].
    split. rewrite zip3_length; auto; congruence. now apply zip3_nonneg. }
  unfold get_equilib_ne. fold nh. unfold fixed_point.
  destruct (helper (rooted n helium nh u) (converge n) maxi true maxi 0 nh) as [o calls] eqn:E.
  cbn [fst]. destruct o as [p | | |]; auto.
  - destruct (helper_inv P _ _ _ _ STEP ACC _ _ _ _ _ P0 E) as (q0 & Q & EQ & _).
    destruct (TOT q0 Q) as (p' & E1 & L1 & F1). rewrite EQ in E1. injection E1 as <-.
    pose proof (STEP _ _ Q EQ) as PP. destruct (TOT p PP) as (q & E2 & L2 & F2). rewrite E2.
    destruct (all_close (converge n) q p) eqn:AC; auto.
    exists p, q. cbv zeta. destruct PP as [PL _]. repeat split; auto.
    apply all_close_spec; auto.
  - pose proof (helper_raised P (rooted n helium nh u) (converge n) maxi true) as H.
    apply (H) with (left := maxi) (i := 0%nat) (p0 := nh); auto.
    + intros q Q. destruct (TOT q Q) as (r & E1 & _). exists r. split; auto. eauto.
    + now rewrite E.
Qed.

Lemma C40_solution_aux : forall n maxi density u helium,
  shipped (recomb n) -> 0 <= photo_factor n -> 0 <= helium < 1 ->
  length density = length u ->
  Forall (fun d => 0 < d) density -> Forall (fun e => 0 < e) u ->
  get_equilib_ne n maxi density u helium <> Raised /\
  (forall ne, get_equilib_ne n maxi density u helium = Value ne ->
     length ne = length density /\
     forall i d e m, nth_error density i = Some d -> nth_error u i = Some e ->
       nth_error ne i = Some m ->
       let nh := d * (1 - helium) in
       0 <= m <= (1 + helium / (2 * (1 - helium))) * nh /\
       exists t, get_temp (m / nh) e helium = Some t /\ 0 < t /\
         Rabs (nebynh n nh t (m / nh) helium - m / nh) < converge n).
Proof.
  intros n maxi density u helium SH PF HE L D U.
  pose proof (get_equilib_inv n maxi density u helium SH PF HE L D U) as G.
  destruct (get_equilib_ne n maxi density u helium) as [ne0 | | |];
    try (split; [discriminate|]; intros; discriminate); [|contradiction].
  split; [discriminate|]. intros ne E. injection E as <-.
  destruct G as (p & q & G). cbv zeta in G. destruct G as (LP & -> & FP & RT & F2).
  assert (LN : length (map (fun d => d * (1 - helium)) density) = length density) by apply map_length.
  split. { rewrite zip2_length; auto. }
  intros i d e m Ed Ee Em. cbv zeta.
  apply zip2_nth in Em as (x & h & Ex & Eh & ->).
  assert (h = d * (1 - helium)) as ->.
  { rewrite (map_nth_error _ _ _ Ed) in Eh. congruence. }
  assert (D0 : 0 < d).
  { rewrite Forall_forall in D. apply D. eapply nth_error_In; eauto. }
  assert (E0 : 0 < e).
  { rewrite Forall_forall in U. apply U. eapply nth_error_In; eauto. }
  assert (X0 : 0 <= x <= 1 + 2 * yy helium).
  { rewrite Forall_forall in FP. apply FP. eapply nth_error_In; eauto. }
  assert (NH : 0 < d * (1 - helium)) by (apply Rmult_lt_0_compat; lra).
  assert (YE : helium / (2 * (1 - helium)) = 2 * yy helium) by (unfold yy; field; lra).
  rewrite YE. split.
  { split. apply Rmult_le_pos; lra. apply Rmult_le_compat_r; lra. }
  assert (XE : x * (d * (1 - helium)) / (d * (1 - helium)) = x) by (field; lra).
  rewrite XE.
  assert (exists y, nth_error q i = Some y) as (y & Ey).
  { destruct (nth_error q i) eqn:Q; eauto. apply nth_error_None in Q.
    assert (length q = length p) by (eapply rooted_length; [| |exact RT]; congruence).
    assert (i < length p)%nat by (apply nth_error_Some; congruence). lia. }
  assert (R1 : rooted1 n helium (d * (1 - helium)) e x = Some y).
  { eapply rooted_nth; [| |exact RT| | | |exact Ey]; eauto. congruence. }
  unfold rooted1 in R1. destruct (C38_temperature_aux x e helium ltac:(lra) E0 HE) as (t & Et & T & _).
  rewrite Et in R1. injection R1 as <-.
  exists t. repeat split; auto. eapply (Forall2_nth_err _ _ _ F2); eauto.
Qed.

Lemma neutral_gen : forall n density u helium fs o,
  shipped (recomb n) -> 0 <= photo_factor n -> 0 <= helium < 1 ->
  length density = length u ->
  Forall (fun d => 0 < d) density -> Forall (fun e => 0 < e) u ->
  (forall ne, o = Value ne ->
     length ne = length density /\
     forall i d e m, nth_error density i = Some d -> nth_error u i = Some e ->
       nth_error ne i = Some m ->
       exists t, get_temp (m / (d * (1 - helium))) e helium = Some t /\ 0 < t) ->
  match o with
  | Value ne =>
      match neutrals n helium (map (fun d => d * (1 - helium)) density) u ne with
      | Some fs => Value fs
      | None => Raised
      end
  | Raised => Raised
  | NotConverged => NotConverged
  | BadResidual => BadResidual
  end = Value fs ->
  exists ne, o = Value ne /\
    length fs = length density /\
    forall i d e m f, nth_error density i = Some d -> nth_error u i = Some e ->
      nth_error ne i = Some m -> nth_error fs i = Some f ->
      let nh := d * (1 - helium) in
      exists t, get_temp (m / nh) e helium = Some t /\
        f = nH0 n nh t (m / nh) /\ 0 < f <= 1.
Proof.
  intros n density u helium fs o SH PF HE L D U SOL H.
  destruct o as [ne | | |]; try discriminate.
  destruct (SOL ne eq_refl) as [LN SOL']. clear SOL.
  destruct (neutrals n helium (map (fun d => d * (1 - helium)) density) u ne) as [gs|] eqn:G; [|discriminate].
  injection H as <-. exists ne. split; auto.
  revert u ne gs L D U LN SOL' G. induction density as [|d density IH]; intros [|v u] [|m ne] gs L D U LN SOL G; try discriminate.
  - injection G as <-. split; auto. intros [|]; discriminate.
  - cbn [map neutrals] in G. cbn [length] in *. inversion D; inversion U; subst.
    destruct (neutral1 n helium (d * (1 - helium)) v m) as [g|] eqn:E1; [|discriminate].
    destruct (neutrals n helium (map (fun d => d * (1 - helium)) density) u ne) as [gs'|] eqn:E2; [|discriminate].
    injection G as <-.
    destruct (IH u ne gs') as [LG IHG]; auto.
    { intros i a b c A B C. apply (SOL (S i)); auto. }
    split; [cbn [length]; lia|].
    intros [|i] a b c f A B C F; cbn [nth_error] in *.
    + injection A as <-. injection B as <-. injection C as <-. injection F as <-. cbv zeta.
      destruct (SOL 0%nat d v m eq_refl eq_refl eq_refl) as (t & Et & T).
      unfold neutral1 in E1. rewrite Et in E1. injection E1 as <-.
      exists t. repeat split; auto; apply nH0_range; auto; try (now apply good_shipped);
        apply Rmult_lt_0_compat; lra.
    + eapply IHG; eauto.
Qed.

Lemma C40_neutral_aux : forall n maxi density u helium fs,
  shipped (recomb n) -> 0 <= photo_factor n -> 0 <= helium < 1 ->
  length density = length u ->
  Forall (fun d => 0 < d) density -> Forall (fun e => 0 < e) u ->
  get_neutral_fraction n maxi density u helium = Value fs ->
  exists ne, get_equilib_ne n maxi density u helium = Value ne /\
    length fs = length density /\
    forall i d e m f, nth_error density i = Some d -> nth_error u i = Some e ->
      nth_error ne i = Some m -> nth_error fs i = Some f ->
      let nh := d * (1 - helium) in
      exists t, get_temp (m / nh) e helium = Some t /\
        f = nH0 n nh t (m / nh) /\ 0 < f <= 1.
Proof.
  intros n maxi density u helium fs SH PF HE L D U H. unfold get_neutral_fraction in H.
  pose proof (C40_solution_aux n maxi density u helium SH PF HE L D U) as [_ SOL].
  refine (neutral_gen n density u helium fs (get_equilib_ne n maxi density u helium)
            SH PF HE L D U _ H).
  intros ne E. destruct (SOL ne E) as [LN SOL']. split; auto.
  intros i d e m A B C. destruct (SOL' i d e m A B C) as (_ & t & Et & T & _). eauto.
Qed.

Lemma C40_per_hydrogen_aux : forall n maxi density u helium rs,
  shipped (recomb n) -> 0 <= photo_factor n -> 0 <= helium < 1 ->
  length density = length u ->
  Forall (fun d => 0 < d) density -> Forall (fun e => 0 < e) u ->
  get_ne_by_nh n maxi density u helium = Value rs ->
  length rs = length density /\
  forall i d e y, nth_error density i = Some d -> nth_error u i = Some e -> nth_error rs i = Some y ->
    0 <= y <= 1 + helium / (2 * (1 - helium)) /\
    exists t, get_temp y e helium = Some t /\ 0 < t /\ Rabs (nebynh n (d * (1 - helium)) t y helium - y) < converge n.
Proof.
  intros n maxi density u helium rs SH PF HE L D U H. unfold get_ne_by_nh in H.
  pose proof (C40_solution_aux n maxi density u helium SH PF HE L D U) as [_ SOL].
  destruct (get_equilib_ne n maxi density u helium) as [ne| | |]; try discriminate.
  destruct (SOL ne eq_refl) as [LN SOL']. injection H as <-.
  split; [rewrite zip2_length; rewrite map_length; auto|].
  intros i d e y Ed Eu Ey. apply zip2_nth in Ey as (m & h & Em & Eh & ->).
  rewrite nth_error_map, Ed in Eh. cbn [option_map] in Eh. injection Eh as <-.
  destruct (SOL' i d e m Ed Eu Em) as (B & t & Et & T & C). cbv zeta in *.
  assert (P : 0 < d * (1 - helium)).
  { apply Rmult_lt_0_compat; [|lra]. rewrite Forall_forall in D. apply D. eapply nth_error_In, Ed. }
  split; [|exists t; auto]. split.
  - apply Rmult_le_pos; [lra|]. left. apply Rinv_0_lt_compat, P.
  - apply (Rmult_le_reg_r (d * (1 - helium))); [exact P|]. unfold Rdiv at 1. rewrite Rmult_assoc, Rinv_l by lra. lra.
Qed.

(** ** Behaviour of the accelerator *)

(** An affine function acting on each element. *)
Fixpoint affine (cs : list (R * R)) (xs : list R) : list R :=
  match cs, xs with
  | (a, b) :: cs', x :: xs' => (a * x + b) :: affine cs' xs'
  | _, _ => []
  end.

Lemma affine_length : forall cs xs, length cs = length xs -> length (affine cs xs) = length xs.
Proof.
  induction cs as [|[a b] cs IH]; intros [|x xs] L; cbn [affine length] in *; try discriminate; auto.
Qed.

Definition fixed (cs : list (R * R)) : list R := map (fun c => snd c / (1 - fst c)) cs.

Lemma affine_fixed : forall cs, Forall (fun c => fst c <> 1) cs -> affine cs (fixed cs) = fixed cs.
Proof.
  induction cs as [|[a b] cs IH]; intros F; cbn [affine fixed map fst snd]; auto.
  inversion F; subst. cbn [fst] in *. f_equal; [field; lra | apply IH; auto].
Qed.

Lemma affine_accel : forall cs xs, length cs = length xs ->
  Forall (fun c => fst c <> 1 /\ 0 <= snd c / (1 - fst c)) cs ->
  zip3 accelerate xs (affine cs xs) (affine cs (affine cs xs)) = fixed cs.
Proof.
  induction cs as [|[a b] cs IH]; intros [|x xs] L F; cbn [length] in L; try discriminate; auto.
  inversion F as [|c l [A B] F']; subst. cbn [fst snd] in A, B.
  cbn [affine zip3 fixed map fst snd]. f_equal; [|apply IH; auto].
  unfold accelerate, del2. destruct (Req_EM_T (a * (a * x + b) + b - 2 * (a * x + b) + x) 0) as [Z | Z].
  - assert (Z' : (a - 1) * ((a - 1) * x + b) = 0) by (rewrite <- Z; ring).
    apply Rmult_integral in Z' as [Z' | Z']; [lra|].
    assert (b = (1 - a) * x) by lra. subst b. field. lra.
  - assert (N : (a - 1) * ((a - 1) * x + b) <> 0).
    { intros Q. apply Z. rewrite <- Q. ring. }
    assert (N1 : (a - 1) * x + b <> 0) by (intros Q; apply N; rewrite Q; ring).
    replace (x - (a * x + b - x) * (a * x + b - x) / (a * (a * x + b) + b - 2 * (a * x + b) + x))
      with (b / (1 - a)).
    + now apply Rmax_left.
    + replace (a * (a * x + b) + b - 2 * (a * x + b) + x) with ((a - 1) * ((a - 1) * x + b)) by ring.
      field. repeat split; lra.
Qed.

Lemma Forall2_same : forall (P : R -> R -> Prop) l, (forall x, P x x) -> Forall2 P l l.
Proof. intros P l H. induction l; constructor; auto. Qed.

Lemma C40_affine_aux : forall cs x0 xtol maxiter,
  length cs = length x0 -> 0 < xtol -> (2 <= maxiter)%nat ->
  Forall (fun c => fst c <> 1 /\ 0 <= snd c / (1 - fst c)) cs ->
  exists p calls,
    fixed_point (fun xs => Some (affine cs xs)) x0 xtol maxiter true = (Value p, calls) /\
    (calls <= 3)%nat /\
    (p = map (fun c => snd c / (1 - fst c)) cs \/
     (p = affine cs x0 /\ Forall2 (fun a b => Rabs (a - b) < xtol / 2) p x0)).
Proof.
  intros cs x0 xtol maxiter L X M F. unfold fixed_point.
  destruct maxiter as [|[|k]]; [lia | lia |].
  set (mi := S (S k)) in *. unfold mi at 2. cbn [helper].
  destruct (all_close (xtol / 2) (affine cs x0) x0) eqn:C.
  - exists (affine cs x0), 1%nat. split; auto. split; [lia|]. right. split; auto.
    apply all_close_spec; auto. now apply affine_length.
  - assert (D : (0 <? mi / 2)%nat = true).
    { apply Nat.ltb_lt. apply Nat.div_str_pos. unfold mi. lia. }
    rewrite D. cbn [andb]. rewrite affine_accel; auto.
    rewrite affine_fixed by (eapply Forall_impl; [|exact F]; cbn beta; intros c [A _]; exact A).
    assert (all_close (xtol / 2) (fixed cs) (fixed cs) = true) as ->.
    { apply all_close_spec; auto. apply Forall2_same. intros x.
      replace (x - x) with 0 by ring. rewrite Rabs_R0. lra. }
    cbn [fst snd]. exists (fixed cs), 3%nat. split; auto.
Qed.

(** The solver raises when there is nothing to find. *)
Lemma C40_raises_aux : forall xtol maxiter accel x, 0 < xtol <= 1 ->
  fst (fixed_point (fun xs => Some (map (fun y => y + 1) xs)) [x] xtol maxiter accel)
  = NotConverged.
Proof.
  intros xtol maxiter accel x X. unfold fixed_point.
  cut (forall left i y, fst (helper (fun xs => Some (map (fun y => y + 1) xs)) xtol
         maxiter accel left i [y]) = NotConverged); [auto|].
  induction left as [|left IH]; intros i y; auto. cbn [helper map].
  assert (all_close (xtol / 2) [y + 1] [y] = false) as ->.
  { unfold all_close. cbn [combine forallb fst snd]. rewrite andb_true_r. apply ltb_false.
    replace (y + 1 - y) with 1 by ring. rewrite Rabs_R1. lra. }
  destruct (accel && (i <? maxiter / 2)%nat); cbn [fst zip3]; apply IH.
Qed.

(** A concrete solution: with a tolerance larger than the range of electron
    abundances the first step is accepted. *)
Lemma example_equilib : forall n maxi, shipped (recomb n) -> 0 <= photo_factor n ->
  converge n = 10 -> exists ne, get_equilib_ne n (S maxi) [1; 2] [100; 200] 0.24 = Value ne.
Proof.
  intros n maxi SH PF CV.
  assert (HE : 0 <= 0.24 < 1) by lra.
  set (nh := map (fun d => d * (1 - 0.24)) [1; 2]).
  assert (N : Forall (fun h => 0 < h) nh) by (repeat constructor; lra).
  assert (U : Forall (fun v => 0 < v) [100; 200]) by (repeat constructor; lra).
  destruct (rooted_total n 0.24 SH PF HE nh [100; 200] nh) as (p & E & FP & LP); auto.
  { repeat constructor; lra. }
  assert (YY : yy 0.24 < 1) by (unfold yy; lra).
  destruct (rooted_total n 0.24 SH PF HE nh [100; 200] p) as (q & E2 & FQ & LQ); auto.
  { eapply Forall_impl; [|exact FP]. cbn beta. intros; lra. }
  
  exists (zip2 Rmult p nh). unfold get_equilib_ne. fold nh. unfold fixed_point. cbn [helper].
  rewrite E.
  assert (B : forall l m, length l = length m -> Forall (fun y => 0 <= y <= 1 + 2 * yy 0.24) l ->
     Forall (fun y => 0 <= y < 4) m -> all_close (converge n / 2) l m = true).
  { intros l m LL F1 F2. apply all_close_spec; auto.
    revert m LL F2. induction F1; intros [|z m] LL F2; cbn [length] in LL; try discriminate; constructor.
    - inversion F2; subst. rewrite CV. apply Rabs_def1; lra.
    - inversion F2; subst. apply IHF1; auto. }
  rewrite B; auto; [|repeat constructor; lra]. cbn [fst]. rewrite E2.
  assert (all_close (converge n) q p = true) as ->; auto.
  apply all_close_spec; auto. 
  assert (G : all_close (converge n / 2) q p = true).
  { apply B; auto. eapply Forall_impl; [|exact FP]. cbn beta. intros; lra. }
  apply all_close_spec in G; auto. clear - G CV. induction G; constructor; auto. lra.
Qed.
