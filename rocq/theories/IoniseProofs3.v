(** Ionisation balance as a function of temperature and of the light per electron. *)
From Coq Require Import Reals Lra Lia Bool.
From Coquelicot Require Import Coquelicot.
From Verif Require Import RatesModel RatesSpec RatesProofs IoniseSpec IoniseProofs IoniseProofs2.
Local Open Scope R_scope.

(** ** Arithmetic *)

Lemma frac_le : forall A A' X X', 0 < A -> A <= A' -> 0 <= X' -> X' <= X -> A / (A + X) <= A' / (A' + X').
Proof.
  intros A A' X X' HA AA HX XX.
  apply Rmult_le_reg_r with ((A + X) * (A' + X')). apply Rmult_lt_0_compat; lra.
  replace (A / (A + X) * ((A + X) * (A' + X'))) with (A * (A' + X')) by (field; lra).
  replace (A' / (A' + X') * ((A + X) * (A' + X'))) with (A' * (A + X)) by (field; lra).
  assert (A * X' <= A' * X) by (apply Rmult_le_compat; lra). lra.
Qed.

Lemma frac_lt : forall A A' X X', 0 < A -> A <= A' -> 0 <= X' -> X' < X -> A / (A + X) < A' / (A' + X').
Proof.
  intros A A' X X' HA AA HX XX.
  apply Rmult_lt_reg_r with ((A + X) * (A' + X')). apply Rmult_lt_0_compat; lra.
  replace (A / (A + X) * ((A + X) * (A' + X'))) with (A * (A' + X')) by (field; lra).
  replace (A' / (A' + X') * ((A + X) * (A' + X'))) with (A' * (A + X)) by (field; lra).
  assert (A * X' <= A' * X') by (apply Rmult_le_compat; lra).
  assert (A' * X' < A' * X) by (apply Rmult_lt_compat_l; lra). lra.
Qed.

Lemma frac_lt' : forall A A' X X', 0 < A -> A < A' -> 0 < X' -> X' <= X -> A / (A + X) < A' / (A' + X').
Proof.
  intros A A' X X' HA AA HX XX.
  apply Rmult_lt_reg_r with ((A + X) * (A' + X')). apply Rmult_lt_0_compat; lra.
  replace (A / (A + X) * ((A + X) * (A' + X'))) with (A * (A' + X')) by (field; lra).
  replace (A' / (A' + X') * ((A + X) * (A' + X'))) with (A' * (A + X)) by (field; lra).
  assert (A * X' < A' * X') by (apply Rmult_lt_compat_r; lra).
  assert (A' * X' <= A' * X) by (apply Rmult_le_compat_l; lra). lra.
Qed.

Definition heb (a b : R) : R := (1 + 2 * b) / (1 + a + b).

Lemma heb_mono : forall a b a' b', 0 < a -> a <= a' -> 0 <= b' -> b' <= b -> heb a' b' <= heb a b.
Proof.
  intros a b a' b' A AA B BB. unfold heb.
  apply Rmult_le_reg_r with ((1 + a + b) * (1 + a' + b')). apply Rmult_lt_0_compat; lra.
  replace ((1 + 2 * b') / (1 + a' + b') * ((1 + a + b) * (1 + a' + b'))) with ((1 + 2 * b') * (1 + a + b)) by (field; lra).
  replace ((1 + 2 * b) / (1 + a + b) * ((1 + a + b) * (1 + a' + b'))) with ((1 + 2 * b) * (1 + a' + b')) by (field; lra).
  assert (a * b' <= a' * b) by (apply Rmult_le_compat; lra). lra.
Qed.

Lemma heb_lip : forall a a' b s, 0 < a' -> a' <= a -> 0 <= b -> 1 <= s -> a <= s * s * a' ->
  heb a' b - heb a b <= 2 * (s - 1) / (s + 1).
Proof.
  intros a a' b s A AA B S1 SA.
  apply Rle_trans with (heb a' b - heb (s * s * a') b).
  { pose proof (heb_mono a b (s * s * a') b ltac:(lra) SA B ltac:(lra)). lra. }
  unfold heb. set (k := 1 + b).
  assert (Q : 1 <= s * s) by nra.
  assert (P : 0 < s * s * a') by (apply Rmult_lt_0_compat; lra).
  replace (1 + a' + b) with (k + a') by (unfold k; ring).
  replace (1 + s * s * a' + b) with (k + s * s * a') by (unfold k; ring).
  assert (K : 1 <= k) by (unfold k; lra). replace (1 + 2 * b) with (2 * k - 1) by (unfold k; ring). clearbody k.
  replace ((2 * k - 1) / (k + a') - (2 * k - 1) / (k + s * s * a'))
    with ((2 * k - 1) * ((s * s - 1) * a') / ((k + a') * (k + s * s * a'))) by (field; lra).
  assert (D : 0 < (k + a') * (k + s * s * a')) by (apply Rmult_lt_0_compat; lra).
  apply Rmult_le_reg_r with (((k + a') * (k + s * s * a')) * (s + 1)). apply Rmult_lt_0_compat; lra.
  replace ((2 * k - 1) * ((s * s - 1) * a') / ((k + a') * (k + s * s * a')) * ((k + a') * (k + s * s * a') * (s + 1)))
    with ((2 * k - 1) * (s - 1) * ((s + 1) * (s + 1) * a')) by (field; lra).
  replace (2 * (s - 1) / (s + 1) * ((k + a') * (k + s * s * a') * (s + 1)))
    with (2 * (s - 1) * ((k + a') * (k + s * s * a'))) by (field; lra).
  assert (E : (s + 1) * (s + 1) * a' * k <= (k + a') * (k + s * s * a')).
  { pose proof (Rle_0_sqr (k - s * a')) as SQ. unfold Rsqr in SQ. lra. }
  assert (E0 : 0 <= (s + 1) * (s + 1) * a') by (repeat apply Rmult_le_pos; lra).
  assert (E1 : (2 * k - 1) * ((s + 1) * (s + 1) * a') <= 2 * ((k + a') * (k + s * s * a'))).
  { lra. }
  assert (0 <= (s - 1) * (2 * ((k + a') * (k + s * s * a')) - (2 * k - 1) * ((s + 1) * (s + 1) * a'))).
  { apply Rmult_le_pos; lra. }
  lra.
Qed.

Lemma log_pade : forall s, 1 <= s -> 2 * (s - 1) / (s + 1) <= ln s.
Proof.
  intros s S1.
  assert (H : ln 1 - 2 * (1 - 1) / (1 + 1) <= ln s - 2 * (s - 1) / (s + 1)).
  { apply (incr (fun s => ln s - 2 * (s - 1) / (s + 1)) (fun s => (s - 1) * (s - 1) / (s * ((s + 1) * (s + 1))))); auto.
    - intros x X. auto_derive. lra. field. lra.
    - intros x X. pose proof (Rle_0_sqr (x - 1)) as Q. unfold Rsqr in Q.
      apply Rmult_le_pos; auto. left. apply Rinv_0_lt_compat. repeat apply Rmult_lt_0_compat; lra. }
  rewrite ln_1 in H. lra.
Qed.

(** ** The balance in terms of the light per electron [f] *)

Definition hyd (n : network) (t f : R) : R :=
  alphaHp (recomb n) t / (alphaHp (recomb n) t + (b2r (collisional n) * GammaeH0 (recomb n) t + gH0 n * f)).
Definition i0 (n : network) (t f : R) : R := b2r (collisional n) * GammaeHe0 (recomb n) t + gHe0 n * f.
Definition i1 (n : network) (t f : R) : R := b2r (collisional n) * GammaeHep (recomb n) t + gHep n * f.
Definition hel (n : network) (t f : R) : R := heb (recHep n t / i0 n t f) (i1 n t f / alphaHepp (recomb n) t).
Definition eb (n : network) (t f helium : R) : R := 1 - hyd n t f + yy helium * hel n t f.

Lemma b2r_if : forall b, b2r b = if b then 1 else 0.
Proof. intros []; reflexivity. Qed.

Section one.
  Variables (n : network) (t f : R).
  Hypothesis GOOD : good (recomb n).
  Hypothesis T : 0 < t.
  Hypothesis F : 0 < f.

  Lemma i0_pos : 0 < i0 n t f.
  Proof.
    unfold i0. destruct (GOOD t T) as (_ & _ & _ & _ & _ & A & _). destruct (gpos n) as (_ & g & _).
    assert (0 < gHe0 n * f) by (now apply Rmult_lt_0_compat).
    assert (0 <= b2r (collisional n) * GammaeHe0 (recomb n) t) by (apply Rmult_le_pos; [apply b2r_nonneg | lra]). lra.
  Qed.
  Lemma i1_pos : 0 < i1 n t f.
  Proof.
    unfold i1. destruct (GOOD t T) as (_ & _ & _ & _ & _ & _ & A). destruct (gpos n) as (_ & _ & g).
    assert (0 < gHep n * f) by (now apply Rmult_lt_0_compat).
    assert (0 <= b2r (collisional n) * GammaeHep (recomb n) t) by (apply Rmult_le_pos; [apply b2r_nonneg | lra]). lra.
  Qed.
  Lemma ih_pos : 0 < b2r (collisional n) * GammaeH0 (recomb n) t + gH0 n * f.
  Proof.
    destruct (GOOD t T) as (_ & _ & _ & _ & A & _). destruct (gpos n) as (g & _ & _).
    assert (0 < gH0 n * f) by (now apply Rmult_lt_0_compat).
    assert (0 <= b2r (collisional n) * GammaeH0 (recomb n) t) by (apply Rmult_le_pos; [apply b2r_nonneg | lra]). lra.
  Qed.

  Lemma hyd_only : forall ne a b, 0 < ne ->
    hydrogen_balance ne (alphaHp (recomb n) t) (b2r (collisional n) * GammaeH0 (recomb n) t) (gH0 n * (f * ne)) a b <->
    a = hyd n t f /\ b = 1 - hyd n t f.
  Proof.
    intros ne a b NE. pose proof ih_pos as I. destruct (GOOD t T) as (A & _).
    unfold hydrogen_balance, hyd. set (al := alphaHp (recomb n) t) in *.
    set (c := b2r (collisional n) * GammaeH0 (recomb n) t) in *. set (g := gH0 n * f) in *.
    replace (gH0 n * (f * ne)) with (g * ne) by (unfold g; ring).
    split.
    - intros [S1 BAL]. assert (a = al / (al + (c + g))).
      { apply Rmult_eq_reg_r with ((al + (c + g)) * ne).
        2: { apply Rgt_not_eq. apply Rmult_lt_0_compat; lra. }
        replace (al / (al + (c + g)) * ((al + (c + g)) * ne)) with (al * ne) by (field; lra).
        replace b with (1 - a) in BAL by lra. lra. }
      split; lra.
    - intros [-> ->]. split. ring. field. lra.
  Qed.

  Lemma hel_only : forall ne a b c, 0 < ne ->
    helium_balance ne (alphaHep (recomb n) t + alphad (recomb n) t) (alphaHepp (recomb n) t)
      (b2r (collisional n) * GammaeHe0 (recomb n) t) (b2r (collisional n) * GammaeHep (recomb n) t)
      (gHe0 n * (f * ne)) (gHep n * (f * ne)) a b c ->
    b + 2 * c = hel n t f.
  Proof.
    intros ne a b c NE. pose proof i0_pos as I0. pose proof i1_pos as I1. destruct (GOOD t T) as (_ & _ & _ & A & _).
    pose proof (recHep_pos n t GOOD T) as RP. unfold hel, heb. unfold recHep in *. unfold i0, i1 in *.
    set (r := alphaHep (recomb n) t + alphad (recomb n) t) in *. set (al := alphaHepp (recomb n) t) in *.
    set (c0 := b2r (collisional n) * GammaeHe0 (recomb n) t) in *. set (c1 := b2r (collisional n) * GammaeHep (recomb n) t) in *.
    set (g0 := gHe0 n * f) in *. set (g1 := gHep n * f) in *.
    replace (gHe0 n * (f * ne)) with (g0 * ne) by (unfold g0; ring).
    replace (gHep n * (f * ne)) with (g1 * ne) by (unfold g1; ring).
    intros (S1 & B1 & B2). clearbody r al c0 c1 g0 g1.
    assert (E1 : a * (c0 + g0) = b * r) by (apply Rmult_eq_reg_r with ne; lra).
    assert (E2 : b * (c1 + g1) = c * al) by (apply Rmult_eq_reg_r with ne; lra).
    set (p := c0 + g0) in *. set (q := c1 + g1) in *.
    assert (Ea : a = b * r / p). { apply Rmult_eq_reg_r with p; [|lra]. rewrite E1. field. lra. }
    assert (Ec : c = b * q / al). { apply Rmult_eq_reg_r with al; [|lra]. rewrite <- E2. field. lra. }
    assert (D : 0 < 1 + r / p + q / al).
    { pose proof (Rdiv_pos r p RP I0). pose proof (Rdiv_pos q al I1 A). lra. }
    assert (Eb : b = / (1 + r / p + q / al)).
    { apply Rmult_eq_reg_r with (1 + r / p + q / al); [|lra]. rewrite Rinv_l by lra.
      transitivity (a + b + c); [rewrite Ea, Ec; field; lra | lra]. }
    rewrite Ec. unfold Rdiv at 2. rewrite Eb. unfold Rdiv. ring.
  Qed.

  Lemma hel_some : forall ne, 0 < ne -> exists a b c,
    helium_balance ne (alphaHep (recomb n) t + alphad (recomb n) t) (alphaHepp (recomb n) t)
      (b2r (collisional n) * GammaeHe0 (recomb n) t) (b2r (collisional n) * GammaeHep (recomb n) t)
      (gHe0 n * (f * ne)) (gHep n * (f * ne)) a b c.
  Proof.
    intros ne NE. pose proof i0_pos as I0. pose proof i1_pos as I1. destruct (GOOD t T) as (_ & _ & _ & A & _).
    pose proof (recHep_pos n t GOOD T) as RP. unfold recHep in *. unfold i0, i1 in *.
    set (r := alphaHep (recomb n) t + alphad (recomb n) t) in *. set (al := alphaHepp (recomb n) t) in *.
    set (c0 := b2r (collisional n) * GammaeHe0 (recomb n) t) in *. set (c1 := b2r (collisional n) * GammaeHep (recomb n) t) in *.
    set (g0 := gHe0 n * f) in *. set (g1 := gHep n * f) in *.
    replace (gHe0 n * (f * ne)) with (g0 * ne) by (unfold g0; ring).
    replace (gHep n * (f * ne)) with (g1 * ne) by (unfold g1; ring). clearbody r al c0 c1 g0 g1.
    set (p := c0 + g0) in *. set (q := c1 + g1) in *.
    set (D := 1 + r / p + q / al).
    assert (HD : 0 < D).
    { pose proof (Rdiv_pos r p RP I0). pose proof (Rdiv_pos q al I1 A). unfold D. lra. }
    exists (r / p / D), (/ D), (q / al / D). unfold helium_balance. repeat split.
    - apply Rmult_eq_reg_r with D; [|lra]. rewrite !Rmult_plus_distr_r. unfold Rdiv.
      rewrite !Rmult_assoc, Rinv_l by lra. unfold D, Rdiv. ring.
    - replace (g0 * ne + c0 * ne) with (p * ne) by (unfold p; ring). field. lra.
    - replace (g1 * ne + c1 * ne) with (q * ne) by (unfold q; ring). field. lra.
  Qed.
End one.

Lemma balanced_iff : forall n s nh helium t x a, good (recomb n) -> 0 < t -> 0 < photo_factor n * s -> 0 < nh -> 0 < x ->
  (balanced n s nh helium t x a <->
   x = eb n t (photo_factor n * s / (x * nh)) helium /\ a = hyd n t (photo_factor n * s / (x * nh))).
Proof.
  intros n s nh helium t x a GOOD T P N X.
  set (f := photo_factor n * s / (x * nh)).
  assert (NE : 0 < x * nh) by (now apply Rmult_lt_0_compat).
  assert (F : 0 < f) by (now apply Rdiv_pos).
  assert (E : forall g, g * photo_factor n * s = g * (f * (x * nh))).
  { intros g. unfold f. field. lra. }
  unfold balanced. cbv zeta. rewrite !E. fold (gH0 n) (gHe0 n) (gHep n). rewrite <- b2r_if.
  unfold eb, yy. split.
  - intros (io & h0 & h1 & h2 & B1 & B2 & EX).
    apply (hyd_only n t f GOOD T F _ _ _ NE) in B1 as [-> ->].
    rewrite (hel_only n t f GOOD T F _ _ _ _ NE B2) in EX. split; auto. rewrite EX at 1.
    f_equal. f_equal. unfold Rdiv. rewrite Rinv_mult. ring.
  - intros [EX ->].
    destruct (hel_some n t f GOOD T F _ NE) as (h0 & h1 & h2 & B2).
    exists (1 - hyd n t f), h0, h1, h2. split; [|split]; auto.
    + now apply (hyd_only n t f GOOD T F _ _ _ NE).
    + rewrite (hel_only n t f GOOD T F _ _ _ _ NE B2). rewrite EX at 1.
      f_equal. f_equal. unfold Rdiv. rewrite Rinv_mult. ring.
Qed.

Lemma nebynh_eb : forall n nh t x helium, good (recomb n) -> 0 < t -> 0 < photo_factor n -> 0 < nh -> 1e-40 < x ->
  nebynh n nh t x helium = eb n t (photo_factor n * self_shield_corr n nh t / (x * nh)) helium.
Proof.
  intros n nh t x helium GOOD T P N X.
  assert (NE : 0 < x * nh) by (apply Rmult_lt_0_compat; lra).
  pose proof (self_shield_corr_range n nh t N) as SR.
  set (f := photo_factor n * self_shield_corr n nh t / (x * nh)).
  assert (F : 0 < f) by (apply Rdiv_pos; [apply Rmult_lt_0_compat; lra | auto]).
  assert (PF : photofac n x nh t = f).
  { unfold photofac. destruct (Rlt_dec 1e-40 x); [|lra]. reflexivity. }
  pose proof (i0_pos n t f GOOD T F) as I0. pose proof (i1_pos n t f GOOD T F) as I1.
  destruct (GOOD t T) as (_ & _ & _ & A & _). pose proof (recHep_pos n t GOOD T) as RP.
  unfold nebynh, nHp, nHepp, nHep, nH0, ionHe0, ionHep. rewrite PF.
  fold (i0 n t f) (i1 n t f). destruct (Req_EM_T (i0 n t f) 0); [lra|].
  unfold eb, hyd, hel, heb. rewrite Rplus_assoc with (r1 := alphaHp (recomb n) t).
  pose proof (Rdiv_pos _ _ RP I0). pose proof (Rdiv_pos _ _ I1 A).
  set (p := recHep n t / i0 n t f) in *. set (q := i1 n t f / alphaHepp (recomb n) t) in *.
  replace (2 * yy helium * (1 / (1 + p + q) * i1 n t f / alphaHepp (recomb n) t))
    with (2 * yy helium * (1 / (1 + p + q) * q)) by (unfold q, Rdiv; ring).
  unfold Rdiv. ring.
Qed.

(** ** The response *)

Lemma hyd_response : forall n t t' f f', good (recomb n) -> within (recomb n) t -> 0 < t' -> t' <= t -> 0 < f' -> f' <= f ->
  hyd n t f <= hyd n t' f' /\ (t' < t \/ f' < f -> hyd n t f < hyd n t' f').
Proof.
  intros n t t' f f' GOOD W T' T F' F. unfold hyd.
  pose proof (ih_pos n t' f' GOOD T' F') as I'. destruct (GOOD t ltac:(lra)) as (A & _ & _ & _ & G & _).
  destruct (gpos n) as (g & _).
  assert (FF : gH0 n * f' <= gH0 n * f) by (apply Rmult_le_compat_l; lra).
  assert (FS : f' < f -> gH0 n * f' < gH0 n * f) by (intros; apply Rmult_lt_compat_l; lra).
  destruct (Req_dec t' t) as [-> | NT].
  - split. apply frac_le; lra. intros C. assert (C' : f' < f) by (destruct C; lra). specialize (FS C'). apply frac_lt; lra.
  - destruct (responds n t t' W T' ltac:(lra)) as (R1 & _ & R3 & _).
    assert (b2r (collisional n) * GammaeH0 (recomb n) t' <= b2r (collisional n) * GammaeH0 (recomb n) t)
      by (apply Rmult_le_compat_l; [apply b2r_nonneg | lra]).
    assert (S1 : alphaHp (recomb n) t / (alphaHp (recomb n) t + (b2r (collisional n) * GammaeH0 (recomb n) t + gH0 n * f))
      < alphaHp (recomb n) t' / (alphaHp (recomb n) t' + (b2r (collisional n) * GammaeH0 (recomb n) t' + gH0 n * f')))
      by (apply frac_lt'; lra).
    split; lra.
Qed.

Lemma hel_response : forall n t t' f f', good (recomb n) -> within (recomb n) t -> 0 < t' -> t' <= t -> 0 < f' -> f' <= f ->
  hel n t' f' - hel n t f <= 3 * ln (t / t').
Proof.
  intros n t t' f f' GOOD W T' T F' F.
  pose proof (i0_pos n t' f' GOOD T' F') as I0'. pose proof (i1_pos n t' f' GOOD T' F') as I1'.
  pose proof (i0_pos n t f GOOD ltac:(lra) ltac:(lra)) as I0. pose proof (i1_pos n t f GOOD ltac:(lra) ltac:(lra)) as I1.
  destruct (GOOD t ltac:(lra)) as (_ & _ & _ & A & _). destruct (GOOD t' ltac:(lra)) as (_ & _ & _ & A' & _).
  pose proof (recHep_pos n t GOOD ltac:(lra)) as RP. pose proof (recHep_pos n t' GOOD ltac:(lra)) as RP'.
  destruct (gpos n) as (_ & g0 & g1).
  assert (L0 : 0 <= ln (t / t')).
  { rewrite ln_quot by lra. pose proof (ln_le' t' t T' T). lra. }
  assert (KEY : alphaHepp (recomb n) t <= alphaHepp (recomb n) t' /\ i0 n t' f' <= i0 n t f /\ i1 n t' f' <= i1 n t f /\
    recHep n t <= recHep n t' * exp (6 * ln (t / t'))).
  { assert (F0 : gHe0 n * f' <= gHe0 n * f) by (apply Rmult_le_compat_l; lra).
    assert (F1 : gHep n * f' <= gHep n * f) by (apply Rmult_le_compat_l; lra).
    unfold i0, i1. destruct (Req_dec t' t) as [-> | NT].
    - split; [lra|]. split; [lra|]. split; [lra|].
      pose proof (exp_le 0 (6 * ln (t / t)) ltac:(lra)) as E. rewrite exp_0 in E.
      assert (recHep n t * 1 <= recHep n t * exp (6 * ln (t / t))) by (apply Rmult_le_compat_l; lra). lra.
    - destruct (responds n t t' W T' ltac:(lra)) as (_ & R2 & _ & R4 & R5 & R6).
      assert (b2r (collisional n) * GammaeHe0 (recomb n) t' <= b2r (collisional n) * GammaeHe0 (recomb n) t)
        by (apply Rmult_le_compat_l; [apply b2r_nonneg | lra]).
      assert (b2r (collisional n) * GammaeHep (recomb n) t' <= b2r (collisional n) * GammaeHep (recomb n) t)
        by (apply Rmult_le_compat_l; [apply b2r_nonneg | lra]).
      repeat split; auto; lra. }
  destruct KEY as (KA & K0 & K1 & KR).
  unfold hel. set (r := recHep n t) in *. set (r' := recHep n t') in *.
  set (p := i0 n t f) in *. set (p' := i0 n t' f') in *. set (q := i1 n t f) in *. set (q' := i1 n t' f') in *.
  set (al := alphaHepp (recomb n) t) in *. set (al' := alphaHepp (recomb n) t') in *.
  assert (Q : 0 < q' / al' <= q / al).
  { split. now apply Rdiv_pos. apply Rle_trans with (q' / al). apply div_anti; lra. apply div_incr; lra. }
  assert (P : 0 < r' / p <= r' / p').
  { split. now apply Rdiv_pos. apply div_anti; lra. }
  pose proof (heb_mono (r' / p) (q / al) (r' / p') (q' / al') ltac:(lra) ltac:(lra) ltac:(lra) ltac:(lra)) as M1.
  set (L := ln (t / t')) in *. set (s := exp (3 * L)).
  assert (S1 : 1 <= s). { unfold s. rewrite <- exp_0. apply exp_le. lra. }
  assert (SS : s * s = exp (6 * L)). { unfold s. rewrite <- exp_plus. f_equal. lra. }
  assert (LS : ln s = 3 * L) by (unfold s; apply ln_exp).
  apply Rle_trans with (heb (r' / p) (q / al) - heb (r / p) (q / al)). lra.
  destruct (Rle_dec (r' / p) (r / p)) as [C | C].
  - rewrite <- LS. eapply Rle_trans; [apply (heb_lip (r / p) (r' / p) (q / al) s) | now apply log_pade]; try lra.
    rewrite SS. replace (exp (6 * L) * (r' / p)) with (r' * exp (6 * L) / p) by (unfold Rdiv; ring). apply div_incr; lra.
  - pose proof (heb_mono (r / p) (q / al) (r' / p) (q / al) ltac:(now apply Rdiv_pos) ltac:(lra) ltac:(lra) ltac:(lra)). lra.
Qed.

Lemma yy_nonneg : forall helium, 0 <= helium < 1 -> 0 <= yy helium.
Proof. intros. unfold yy. apply Rmult_le_pos. lra. left; apply Rinv_0_lt_compat; lra. Qed.

Lemma eb_response : forall n t t' f f' helium, good (recomb n) -> within (recomb n) t -> 0 < t' -> t' <= t -> 0 < f' -> f' <= f ->
  0 <= helium < 1 ->
  eb n t' f' helium - eb n t f helium <= 3 * yy helium * ln (t / t') /\
  (t' < t \/ f' < f -> eb n t' f' helium - eb n t f helium < 3 * yy helium * ln (t / t')).
Proof.
  intros n t t' f f' helium GOOD W T' T F' F H.
  destruct (hyd_response n t t' f f' GOOD W T' T F' F) as [H1 H2].
  pose proof (hel_response n t t' f f' GOOD W T' T F' F) as H3. pose proof (yy_nonneg helium H) as Y.
  assert (yy helium * (hel n t' f' - hel n t f) <= yy helium * (3 * ln (t / t'))) by (apply Rmult_le_compat_l; lra).
  unfold eb. split. lra. intros C. specialize (H2 C). lra.
Qed.

(** At one temperature no limit on it is needed. *)
Lemma hyd_bright : forall n t f f', good (recomb n) -> 0 < t -> 0 < f' -> f' < f -> hyd n t f < hyd n t f'.
Proof.
  intros n t f f' GOOD T F' F. unfold hyd. pose proof (ih_pos n t f' GOOD T F'). destruct (gpos n) as (g & _).
  destruct (GOOD t T) as (A & _).
  assert (gH0 n * f' < gH0 n * f) by (apply Rmult_lt_compat_l; lra). apply frac_lt; lra.
Qed.

Lemma eb_bright : forall n t f f' helium, good (recomb n) -> 0 < t -> 0 < f' -> f' < f -> 0 <= helium < 1 ->
  eb n t f' helium < eb n t f helium.
Proof.
  intros n t f f' helium GOOD T F' F H. pose proof (hyd_bright n t f f' GOOD T F' F).
  pose proof (i0_pos n t f' GOOD T F') as I0'. pose proof (i1_pos n t f' GOOD T F') as I1'.
  destruct (GOOD t T) as (_ & _ & _ & A & _). pose proof (recHep_pos n t GOOD T) as RP. destruct (gpos n) as (_ & g0 & g1).
  assert (F0 : gHe0 n * f' <= gHe0 n * f) by (apply Rmult_le_compat_l; lra).
  assert (F1 : gHep n * f' <= gHep n * f) by (apply Rmult_le_compat_l; lra).
  assert (hel n t f' <= hel n t f).
  { unfold hel. apply heb_mono.
    - apply Rdiv_pos; auto. apply i0_pos; auto; lra.
    - apply div_anti; auto; try lra. unfold i0. lra.
    - left. now apply Rdiv_pos.
    - apply div_incr; auto. unfold i1. lra. }
  pose proof (yy_nonneg helium H). assert (yy helium * hel n t f' <= yy helium * hel n t f) by (apply Rmult_le_compat_l; lra).
  unfold eb. lra.
Qed.

(** ** Shielding *)

Lemma Rpower_anti : forall a b e, 0 < a -> a <= b -> e <= 0 -> Rpower b e <= Rpower a e.
Proof.
  intros a b e A B E. replace e with (- - e) by ring. rewrite !(Rpower_Ropp _ (- e)).
  apply Rinv_le_contravar. apply Rpower_pos. apply Rpower_incr; lra.
Qed.

Lemma shield_anti : forall n nh nh' t t', 0 < nh -> nh <= nh' -> 0 < t' -> t' <= t ->
  self_shield_corr n nh' t' <= self_shield_corr n nh t.
Proof.
  intros n nh nh' t t' N NN T' T. unfold self_shield_corr. destruct (selfshield n); [|lra]. cbv zeta.
  pose proof (self_shield_dens_pos n t) as D. pose proof (self_shield_dens_pos n t') as D'.
  assert (DD : self_shield_dens n t' <= self_shield_dens n t).
  { unfold self_shield_dens.
    repeat (apply Rmult_le_compat_r; [left; apply Rpower_pos |]).
    apply Rmult_le_compat_l. apply Rmult_le_pos. lra. left; apply Rpower_pos. apply Rpower_incr; lra. }
  set (d := 1.003 * self_shield_dens n t). set (d' := 1.003 * self_shield_dens n t').
  assert (Q : 0 < nh / d) by (apply Rdiv_pos; unfold d; lra).
  assert (QQ : nh / d <= nh' / d').
  { apply Rle_trans with (nh / d'). apply div_anti; unfold d, d'; lra. apply div_incr; unfold d'; lra. }
  pose proof (Rpower_incr _ _ 1.64 Q QQ ltac:(lra)). pose proof (Rpower_pos (nh / d) 1.64).
  pose proof (Rpower_anti (1 + Rpower (nh / d) 1.64) (1 + Rpower (nh' / d') 1.64) (-2.28) ltac:(lra) ltac:(lra) ltac:(lra)).
  pose proof (Rpower_anti (1 + nh / d) (1 + nh' / d') (-0.84) ltac:(lra) ltac:(lra) ltac:(lra)). lra.
Qed.

Lemma light_anti : forall F s s' nh nh' x x', 0 < F -> 0 < s' -> s' <= s -> 0 < nh -> nh <= nh' -> 0 < x -> x <= x' ->
  0 < F * s' / (x' * nh') <= F * s / (x * nh) /\ (nh < nh' \/ x < x' -> F * s' / (x' * nh') < F * s / (x * nh)).
Proof.
  intros F s s' nh nh' x x' HF S' SS N NN X XX.
  assert (P : 0 < x * nh) by (now apply Rmult_lt_0_compat).
  assert (PP : x * nh <= x' * nh') by (apply Rmult_le_compat; lra).
  assert (Q : 0 < F * s') by (now apply Rmult_lt_0_compat).
  assert (QQ : F * s' <= F * s) by (apply Rmult_le_compat_l; lra).
  split; [split|].
  - apply Rdiv_pos; lra.
  - apply Rle_trans with (F * s' / (x * nh)). apply div_anti; lra. apply div_incr; lra.
  - intros C. apply Rlt_le_trans with (F * s' / (x * nh)); [|apply div_incr; lra].
    apply div_anti_lt; auto. destruct C as [C | C].
    + apply Rlt_le_trans with (x * nh'). apply Rmult_lt_compat_l; lra. apply Rmult_le_compat_r; lra.
    + apply Rlt_le_trans with (x' * nh). apply Rmult_lt_compat_r; lra. apply Rmult_le_compat_l; lra.
Qed.
