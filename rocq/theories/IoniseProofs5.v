(** There is an equilibrium. *)
From Coq Require Import Reals Lra Lia Bool Ranalysis5.
From Coquelicot Require Import Coquelicot.
From Verif Require Import RatesModel RatesSpec RatesProofs IoniseSpec IoniseProofs IoniseProofs2 IoniseProofs3 IoniseProofs4.
Local Open Scope R_scope.

(** ** The rates are smooth *)

Lemma d_power : forall e a, 0 < a -> ex_derive (fun t => Rpower t e) a.
Proof. intros e a A. unfold Rpower. auto_derive. lra. Qed.

Lemma d_verner : forall aa bb t0 t1 t, 0 < t0 -> 0 < t1 -> 0 < t -> ex_derive (fun t => verner_fit t aa bb t0 t1) t.
Proof.
  intros aa bb t0 t1 t T0 T1 T. unfold verner_fit, Rpower.
  pose proof (Rdiv_pos t t0 T T0). pose proof (Rdiv_pos t t1 T T1).
  pose proof (sqrt_lt_R0 _ H). pose proof (sqrt_lt_R0 _ H0).
  auto_derive. unfold Rdiv in *. repeat split; auto; try lra.
  apply Rgt_not_eq. repeat apply Rmult_lt_0_compat; auto; apply exp_pos.
Qed.

Lemma d_lowcharge : forall aa bb cc t0 t1 t2 t, 0 < t0 -> 0 < t1 -> 0 < t -> ex_derive (fun t => lowcharge_fit t aa bb cc t0 t1 t2) t.
Proof.
  intros aa bb cc t0 t1 t2 t T0 T1 T. unfold lowcharge_fit, verner_fit, Rpower.
  pose proof (Rdiv_pos t t0 T T0). pose proof (Rdiv_pos t t1 T T1).
  pose proof (sqrt_lt_R0 _ H). pose proof (sqrt_lt_R0 _ H0).
  auto_derive. unfold Rdiv in *. repeat split; auto; try lra.
  apply Rgt_not_eq. repeat apply Rmult_lt_0_compat; auto; apply exp_pos.
Qed.

Lemma d_voronov : forall dE P A X K t, 0 < dE -> 0 < X -> 0 < t -> ex_derive (fun t => voronov_fit t dE P A X K) t.
Proof.
  intros dE P A X K t E HX T. unfold voronov_fit, Rpower. cbv zeta.
  assert (Q : 0 < 8.61734e-5 * t) by lra. set (k := 8.61734e-5) in *. clearbody k.
  pose proof (Rdiv_pos dE _ E Q). unfold Rdiv in *.
  auto_derive. repeat split; auto; try lra.
Qed.

Lemma d_collisional : forall c b t, 0 < t -> ex_derive (fun t => cen_collisional c b t) t.
Proof.
  intros c b t T. unfold cen_collisional. pose proof (sqrt_pos (t / 1e5)).
  set (k := 1e5) in *. assert (0 < t / k) by (apply Rdiv_pos; unfold k; lra). assert (0 < k) by (unfold k; lra). clearbody k.
  unfold Rdiv in *. auto_derive. repeat split; auto; try lra.
Qed.

Lemma d_dielectronic : forall D A B t, 0 < t ->
  ex_derive (fun t => D / Rpower t 1.5 * exp (A / t) * (1 + 0.3 * exp (B / t))) t.
Proof.
  intros D A B t T. unfold Rpower. pose proof (exp_pos (1.5 * ln t)).
  set (k := 1.5) in *. set (m := 0.3). clearbody k m.
  auto_derive. repeat split; auto; lra.
Qed.

Lemma d_cen_alphaHp : forall t, 0 < t -> ex_derive cen_alphaHp t.
Proof.
  intros t T. unfold cen_alphaHp, Rpower. pose proof (sqrt_lt_R0 _ T).
  pose proof (exp_pos (0.7 * ln (t / 1e6))). pose proof (exp_pos (0.2 * ln (t / 1000))).
  set (k := 1e6) in *. set (e := 0.7) in *. set (e' := 0.2) in *. set (c := 8.4e-11).
  assert (0 < t / k) by (apply Rdiv_pos; unfold k; lra). assert (0 < k) by (unfold k; lra).
  assert (0 < t / 1000) by lra. clearbody k e e' c. unfold Rdiv in *.
  auto_derive. repeat split; auto; lra.
Qed.

Lemma d_cen_alphaHep : forall t, 0 < t -> ex_derive cen_alphaHep t.
Proof.
  intros t T. unfold cen_alphaHep, Rpower. pose proof (exp_pos (0.6353 * ln t)).
  set (e := 0.6353) in *. set (c := 1.5e-10). clearbody e c. auto_derive. repeat split; auto; lra.
Qed.

Lemma d_verner_alphaHep : forall t, 0 < t < 6e5 -> ex_derive verner_alphaHep t.
Proof.
  intros t T. apply (ex_derive_ext_loc (fun t => verner_fit t 3.294e-11 0.6910 1.554e+01 3.676e+07)).
  - exists (mkposreal (6e5 - t) ltac:(lra)). intros y B. cbn in B. unfold ball in B. cbn in B. unfold AbsRing_ball, abs, minus, plus, opp in B. cbn in B.
    apply Rabs_def2 in B. symmetry. apply verner_alphaHep_low. lra.
  - apply d_verner; lra.
Qed.

Definition smooth (n : network) (t : R) : Prop :=
  ex_derive (alphaHp (recomb n)) t /\ ex_derive (recHep n) t /\ ex_derive (alphaHepp (recomb n)) t /\
  ex_derive (GammaeH0 (recomb n)) t /\ ex_derive (GammaeHe0 (recomb n)) t /\ ex_derive (GammaeHep (recomb n)) t.

Lemma d_sum : forall f g t, ex_derive f t -> ex_derive g t -> ex_derive (fun t => f t + g t) t.
Proof. intros. auto_derive. auto. Qed.

Lemma smooth_within : forall n t, within (recomb n) t -> 0 < t -> smooth n t.
Proof.
  intros n t W T. unfold smooth.
  assert (RS : ex_derive (alphaHep (recomb n)) t -> ex_derive (alphad (recomb n)) t -> ex_derive (recHep n) t).
  { intros. unfold recHep. now apply d_sum. }
  destruct W as [E | [[E M] | [E M]]]; rewrite E in *;
    cbn [alphaHp alphaHep alphad alphaHepp GammaeH0 GammaeHe0 GammaeHep cen92 badnell verner96] in *.
  - split; [now apply d_cen_alphaHp |]. split.
    { apply RS. now apply d_cen_alphaHep. unfold cen_alphad. now apply d_dielectronic. }
    split. { pose proof (d_cen_alphaHp t T). auto_derive. auto. }
    repeat split; now apply d_collisional.
  - split; [apply d_verner; lra |]. split.
    { apply RS. apply d_verner; lra. unfold verner_alphad. now apply d_dielectronic. }
    split. { apply d_lowcharge; lra. }
    repeat split; apply d_voronov; lra.
  - split; [apply d_verner; lra |]. split.
    { apply RS. apply d_verner_alphaHep; lra. unfold verner_alphad. now apply d_dielectronic. }
    split. { apply d_verner; lra. }
    repeat split; apply d_voronov; lra.
Qed.

Lemma d_shield : forall n nh t, 0 < nh -> 0 < t -> ex_derive (self_shield_corr n nh) t.
Proof.
  intros n nh t N T. unfold self_shield_corr. destruct (selfshield n); [|auto_derive; auto]. cbv zeta.
  unfold self_shield_dens.
  set (k := 6.73e-3 * Rpower (gray n / 2.49e-18) (-2 / 3)).
  set (m := Rpower (gH0 n / 1e-12) (2 / 3)). set (m' := Rpower (f_bar n / 0.17) (-1 / 3)).
  assert (K : 0 < k) by (apply Rmult_lt_0_compat; [lra | apply Rpower_pos]).
  assert (M : 0 < m) by apply Rpower_pos. assert (M' : 0 < m') by apply Rpower_pos. clearbody k m m'.
  unfold Rpower.
  set (q := 1e4). set (e := 0.17). set (z := 1.003). set (e1 := 1.64). set (e2 := -2.28). set (e3 := -0.84).
  set (c1 := 0.98). set (c2 := 0.02).
  assert (0 < q) by (unfold q; lra). assert (0 < z) by (unfold z; lra). clearbody q e z e1 e2 e3 c1 c2.
  pose proof (Rdiv_pos t q T H) as TQ. pose proof (exp_pos (e * ln (t / q))) as EX. unfold Rdiv in *.
  assert (D : 0 < z * (k * exp (e * ln (t * / q)) * m * m')) by (repeat apply Rmult_lt_0_compat; auto).
  assert (ND : 0 < nh * / (z * (k * exp (e * ln (t * / q)) * m * m'))) by (apply Rmult_lt_0_compat; auto; now apply Rinv_0_lt_compat).
  auto_derive. pose proof (exp_pos (e1 * ln (nh * / (z * (k * exp (e * ln (t * / q)) * m * m'))))).
  repeat split; auto; lra.
Qed.

(** ** Existence *)

Definition temp (u helium x : R) : R :=
  u * 1e10 * 1.67262178e-24 / (3 / 2 * 1.38066e-16) / particles_per_mass x helium.

Lemma temp_thermal : forall u helium x, 0 <= x -> 0 <= helium < 1 -> thermal u helium x (temp u helium x).
Proof.
  intros u helium x X H. unfold thermal, temp. pose proof (particles_pos x helium X H). field. lra.
Qed.

Lemma hel_range : forall n t f, good (recomb n) -> 0 < t -> 0 < f -> 0 < hel n t f < 2.
Proof.
  intros n t f GOOD T F. unfold hel, heb.
  pose proof (i0_pos n t f GOOD T F) as I0. pose proof (i1_pos n t f GOOD T F) as I1.
  destruct (GOOD t T) as (_ & _ & _ & A & _). pose proof (recHep_pos n t GOOD T) as RP.
  pose proof (Rdiv_pos _ _ RP I0). pose proof (Rdiv_pos _ _ I1 A).
  set (a := recHep n t / i0 n t f) in *. set (b := i1 n t f / alphaHepp (recomb n) t) in *.
  split. apply Rdiv_pos; lra. apply Rmult_lt_reg_r with (1 + a + b). lra.
  replace ((1 + 2 * b) / (1 + a + b) * (1 + a + b)) with (1 + 2 * b) by (field; lra). lra.
Qed.

Lemma hyd_range : forall n t f, good (recomb n) -> 0 < t -> 0 < f -> 0 < hyd n t f < 1.
Proof.
  intros n t f GOOD T F. unfold hyd. pose proof (ih_pos n t f GOOD T F). destruct (GOOD t T) as (A & _).
  set (a := alphaHp (recomb n) t) in *. set (b := b2r (collisional n) * GammaeH0 (recomb n) t + gH0 n * f) in *.
  split. apply Rdiv_pos; lra. apply Rmult_lt_reg_r with (a + b). lra.
  replace (a / (a + b) * (a + b)) with a by (field; lra). lra.
Qed.

Lemma e_continuous : forall n nh helium u tm x, 0 < photo_factor n -> 0 < nh -> 0 <= helium < 1 -> 0 < u ->
  thermal u helium 0 tm -> within (recomb n) tm -> 0 < x ->
  continuity_pt (fun x => x - eb n (temp u helium x) (photo_factor n * self_shield_corr n nh (temp u helium x) / (x * nh)) helium) x.
Proof.
  intros n nh helium u tm x P N H U TM W X.
  pose proof (temp_thermal u helium x ltac:(lra) H) as TH.
  pose proof (thermal_pos u helium x _ U ltac:(lra) H TH) as T.
  pose proof (thermal_order u helium 0 x tm _ U ltac:(lra) ltac:(lra) ltac:(lra) TM TH) as TX.
  pose proof (smooth_within n _ (within_down _ _ _ W TX) T) as (D1 & D2 & D3 & D4 & D5 & D6).
  pose proof (d_shield n nh _ N T) as D7.
  assert (DT : ex_derive (temp u helium) x).
  { unfold temp. set (k := u * 1e10 * 1.67262178e-24 / (3 / 2 * 1.38066e-16)). clearbody k.
    pose proof (particles_pos x helium ltac:(lra) H). unfold particles_per_mass in *. auto_derive. lra. }
  pose proof (good_shipped _ (within_shipped _ _ W)) as GOOD.
  pose proof (self_shield_corr_range n nh (temp u helium x) N) as SR.
  assert (NE : 0 < x * nh) by (now apply Rmult_lt_0_compat).
  assert (F : 0 < photo_factor n * self_shield_corr n nh (temp u helium x) / (x * nh)).
  { apply Rdiv_pos; auto. apply Rmult_lt_0_compat; lra. }
  pose proof (i0_pos n _ _ GOOD T F) as I0. pose proof (i1_pos n _ _ GOOD T F) as I1. pose proof (ih_pos n _ _ GOOD T F) as IH.
  destruct (GOOD _ T) as (A1 & _ & _ & A2 & _). pose proof (recHep_pos n _ GOOD T) as RP.
  pose proof (Rdiv_pos _ _ RP I0) as Q0. pose proof (Rdiv_pos _ _ I1 A2) as Q1.
  apply continuity_pt_filterlim.
  apply (ex_derive_continuous (fun x => x - eb n (temp u helium x) (photo_factor n * self_shield_corr n nh (temp u helium x) / (x * nh)) helium)).
  unfold eb, hyd, hel, heb, i0, i1 in *.
  set (al := alphaHp (recomb n)) in *. set (rc := recHep n) in *. set (app := alphaHepp (recomb n)) in *.
  set (c0 := GammaeH0 (recomb n)) in *. set (c1 := GammaeHe0 (recomb n)) in *. set (c2 := GammaeHep (recomb n)) in *.
  set (sh := self_shield_corr n nh) in *. set (T0 := temp u helium) in *. set (y := yy helium).
  set (g0 := gH0 n) in *. set (g1 := gHe0 n) in *. set (g2 := gHep n) in *. set (cc := b2r (collisional n)) in *.
  set (pf := photo_factor n) in *.
  clearbody al rc app c0 c1 c2 sh T0 y g0 g1 g2 cc pf. unfold Rdiv in *.
  auto_derive. repeat split; auto; lra.
Qed.

Lemma C103_exists_aux : forall n nh helium u tm, 0 < photo_factor n -> 0 < nh -> 0 <= helium < 1 -> 0 < u ->
  thermal u helium 0 tm -> within (recomb n) tm ->
  exists x t a, 0 < x < 1 + helium / (2 * (1 - helium)) /\ 0 < a < 1 /\ thermal u helium x t /\
    balanced n (self_shield_corr n nh t) nh helium t x a.
Proof.
  intros n nh helium u tm P N H U TM W.
  pose proof (good_shipped _ (within_shipped _ _ W)) as GOOD. pose proof (yy_nonneg helium H) as Y.
  set (e := fun x => eb n (temp u helium x) (photo_factor n * self_shield_corr n nh (temp u helium x) / (x * nh)) helium).
  assert (T : forall x, 0 <= x -> 0 < temp u helium x).
  { intros x X. apply (thermal_pos u helium x); auto. now apply temp_thermal. }
  assert (F : forall x, 0 < x -> 0 < photo_factor n * self_shield_corr n nh (temp u helium x) / (x * nh)).
  { intros x X. pose proof (self_shield_corr_range n nh (temp u helium x) N). apply Rdiv_pos; apply Rmult_lt_0_compat; lra. }
  (* few electrons *)
  set (t1 := temp u helium 1).
  pose proof (T 1 ltac:(lra)) as T1. fold t1 in T1.
  pose proof (self_shield_corr_range n nh t1 N) as S1. set (s1 := self_shield_corr n nh t1) in *.
  destruct (GOOD t1 T1) as (A1 & _). set (a1 := alphaHp (recomb n) t1) in *.
  destruct (gpos n) as (g & _).
  assert (G1 : 0 < gH0 n * (photo_factor n * s1)) by (repeat apply Rmult_lt_0_compat; lra).
  assert (AN : 0 < a1 * nh) by (now apply Rmult_lt_0_compat).
  set (x0 := Rmin (1 / 4) (gH0 n * (photo_factor n * s1) / (a1 * nh))).
  assert (X0 : 0 < x0). { unfold x0. apply Rmin_glb_lt. lra. now apply Rdiv_pos. }
  assert (X1 : x0 <= 1 / 4) by apply Rmin_l.
  assert (X2 : a1 * nh * x0 <= gH0 n * (photo_factor n * s1)).
  { assert (Q : x0 <= gH0 n * (photo_factor n * s1) / (a1 * nh)) by apply Rmin_r.
    apply Rmult_le_compat_l with (r := a1 * nh) in Q; [|lra].
    replace (a1 * nh * (gH0 n * (photo_factor n * s1) / (a1 * nh))) with (gH0 n * (photo_factor n * s1)) in Q by (field; lra). exact Q. }
  assert (E0 : x0 < e x0).
  { unfold e. set (t := temp u helium x0). pose proof (T x0 ltac:(lra)) as TP. fold t in TP.
    pose proof (F x0 X0) as FP. fold t in FP. set (f := photo_factor n * self_shield_corr n nh t / (x0 * nh)) in *.
    pose proof (hel_range n t f GOOD TP FP) as HR.
    assert (0 <= yy helium * hel n t f) by (apply Rmult_le_pos; lra).
    assert (HY : hyd n t f < 1 - x0); [|unfold eb; lra].
    assert (TT : t1 <= t).
    { apply (thermal_order u helium x0 1); auto; try lra; apply temp_thermal; lra. }
    pose proof (thermal_order u helium 0 x0 tm t U ltac:(lra) ltac:(lra) H TM ltac:(apply temp_thermal; lra)) as TX.
    destruct (GOOD t TP) as (A & _ & _ & _ & C & _).
    assert (AA : alphaHp (recomb n) t <= a1).
    { unfold a1. destruct (Req_dec t1 t) as [<- | NT]. lra.
      destruct (responds n t t1 (within_down _ _ t W TX) T1 ltac:(lra)) as (R1 & _). lra. }
    pose proof (shield_anti n nh nh t t1 N ltac:(lra) T1 TT) as SS. fold s1 in SS.
    assert (FF : 2 * (alphaHp (recomb n) t * x0) <= gH0 n * f).
    { unfold f. apply Rmult_le_reg_r with (x0 * nh). apply Rmult_lt_0_compat; lra.
      replace (gH0 n * (photo_factor n * self_shield_corr n nh t / (x0 * nh)) * (x0 * nh))
        with (gH0 n * (photo_factor n * self_shield_corr n nh t)) by (field; lra).
      apply Rle_trans with (gH0 n * (photo_factor n * s1)).
      2: { apply Rmult_le_compat_l. lra. apply Rmult_le_compat_l; lra. }
      apply Rle_trans with (a1 * nh * x0); auto.
      replace (2 * (alphaHp (recomb n) t * x0) * (x0 * nh)) with ((alphaHp (recomb n) t * (nh * x0)) * (2 * x0)) by ring.
      assert (PN : 0 < nh * x0) by (now apply Rmult_lt_0_compat).
      replace (a1 * nh * x0) with ((a1 * (nh * x0)) * 1) by ring.
      apply Rmult_le_compat; try lra. apply Rmult_le_pos; lra. apply Rmult_le_compat_r; lra. }
    unfold hyd. set (al := alphaHp (recomb n) t) in *. set (b := b2r (collisional n) * GammaeH0 (recomb n) t).
    assert (B : 0 <= b) by (unfold b; apply Rmult_le_pos; [apply b2r_nonneg | lra]).
    set (gf := gH0 n * f) in *. assert (GF : 0 < gf) by (unfold gf; now apply Rmult_lt_0_compat).
    apply Rmult_lt_reg_r with (al + (b + gf)). lra.
    replace (al / (al + (b + gf)) * (al + (b + gf))) with al by (field; lra).
    assert (0 <= (1 - x0) * b) by (apply Rmult_le_pos; lra).
    assert (3 / 4 * gf <= (1 - x0) * gf) by (apply Rmult_le_compat_r; lra).
    lra. }
  (* many electrons *)
  set (X := 1 + 2 * yy helium).
  assert (E1 : e X < X).
  { unfold e. pose proof (T X ltac:(unfold X; lra)) as TP. pose proof (F X ltac:(unfold X; lra)) as FP.
    set (f := photo_factor n * self_shield_corr n nh (temp u helium X) / (X * nh)) in *.
    pose proof (hel_range n _ f GOOD TP FP) as HR. pose proof (hyd_range n _ f GOOD TP FP) as HH.
    assert (yy helium * hel n (temp u helium X) f <= yy helium * 2) by (apply Rmult_le_compat_l; lra).
    assert (EX : X = 1 + 2 * yy helium) by reflexivity. unfold eb. lra. }
  destruct (IVT_interv (fun x => x - e x) x0 X) as (x & XR & XZ).
  - intros a A. apply (e_continuous n nh helium u tm); auto; lra.
  - unfold X; lra.
  - lra.
  - lra.
  - set (t := temp u helium x) in *.
    assert (TH : thermal u helium x t) by (apply temp_thermal; lra).
    pose proof (T x ltac:(lra)) as TP. fold t in TP. pose proof (F x ltac:(lra)) as FP. fold t in FP.
    exists x, t, (hyd n t (photo_factor n * self_shield_corr n nh t / (x * nh))).
    assert (x < X). { destruct (Req_dec x X) as [-> | NX]; lra. }
    split. { split. lra. unfold X, yy in *. replace (helium / (2 * (1 - helium))) with (2 * (helium / 4 / (1 - helium))) by (field; lra). lra. }
    split. now apply hyd_range. split; auto.
    pose proof (self_shield_corr_range n nh t N).
    apply balanced_iff; auto; try lra. apply Rmult_lt_0_compat; lra.
    split; auto. change (x = e x). lra.
Qed.

Lemma C102_exists_aux : forall n nh helium t s, shipped (recomb n) -> 0 < photo_factor n -> 0 < s -> 0 < nh -> 0 <= helium < 1 -> 0 < t ->
  exists x a, 0 < x < 1 + helium / (2 * (1 - helium)) /\ 0 < a < 1 /\ balanced n s nh helium t x a /\
    forall x' a', 0 < x' -> balanced n s nh helium t x' a' -> x' = x /\ a' = a.
Proof.
  intros n nh helium t s SH P S0 N H T. pose proof (good_shipped _ SH) as GOOD. pose proof (yy_nonneg helium H) as Y.
  set (F := photo_factor n * s). assert (HF : 0 < F) by (now apply Rmult_lt_0_compat).
  set (e := fun x => eb n t (F / (x * nh)) helium).
  assert (FP : forall x, 0 < x -> 0 < F / (x * nh)).
  { intros x X. apply Rdiv_pos; auto. now apply Rmult_lt_0_compat. }
  destruct (GOOD t T) as (A & _ & _ & _ & C & _). destruct (gpos n) as (g & _).
  assert (GF : 0 < gH0 n * F) by (now apply Rmult_lt_0_compat).
  assert (AN : 0 < alphaHp (recomb n) t * nh) by (now apply Rmult_lt_0_compat).
  set (x0 := Rmin (1 / 4) (gH0 n * F / (alphaHp (recomb n) t * nh))).
  assert (X0 : 0 < x0). { unfold x0. apply Rmin_glb_lt. lra. now apply Rdiv_pos. }
  assert (X1 : x0 <= 1 / 4) by apply Rmin_l.
  assert (X2 : alphaHp (recomb n) t * nh * x0 <= gH0 n * F).
  { assert (Q : x0 <= gH0 n * F / (alphaHp (recomb n) t * nh)) by apply Rmin_r.
    apply Rmult_le_compat_l with (r := alphaHp (recomb n) t * nh) in Q; [|lra].
    replace (alphaHp (recomb n) t * nh * (gH0 n * F / (alphaHp (recomb n) t * nh))) with (gH0 n * F) in Q by (field; lra). exact Q. }
  assert (E0 : x0 < e x0).
  { unfold e. pose proof (FP x0 X0) as FX. set (f := F / (x0 * nh)) in *.
    pose proof (hel_range n t f GOOD T FX) as HR.
    assert (0 <= yy helium * hel n t f) by (apply Rmult_le_pos; lra).
    assert (HY : hyd n t f < 1 - x0); [|unfold eb; lra].
    assert (FF : 2 * (alphaHp (recomb n) t * x0) <= gH0 n * f).
    { unfold f. apply Rmult_le_reg_r with (x0 * nh). apply Rmult_lt_0_compat; lra.
      replace (gH0 n * (F / (x0 * nh)) * (x0 * nh)) with (gH0 n * F) by (field; lra).
      apply Rle_trans with (alphaHp (recomb n) t * nh * x0); auto.
      replace (2 * (alphaHp (recomb n) t * x0) * (x0 * nh)) with ((alphaHp (recomb n) t * nh * x0) * (2 * x0)) by ring.
      assert (PN : 0 < alphaHp (recomb n) t * nh * x0) by (now apply Rmult_lt_0_compat).
      rewrite <- (Rmult_1_r (alphaHp (recomb n) t * nh * x0)) at 2.
      apply Rmult_le_compat_l; lra. }
    unfold hyd. set (al := alphaHp (recomb n) t) in *. set (b := b2r (collisional n) * GammaeH0 (recomb n) t).
    assert (B : 0 <= b) by (unfold b; apply Rmult_le_pos; [apply b2r_nonneg | lra]).
    assert (GX : 0 < gH0 n * f) by (now apply Rmult_lt_0_compat). set (gf := gH0 n * f) in *.
    apply Rmult_lt_reg_r with (al + (b + gf)). lra.
    replace (al / (al + (b + gf)) * (al + (b + gf))) with al by (field; lra).
    assert (0 <= (1 - x0) * b) by (apply Rmult_le_pos; lra).
    assert (3 / 4 * gf <= (1 - x0) * gf) by (apply Rmult_le_compat_r; lra).
    lra. }
  set (X := 1 + 2 * yy helium).
  assert (E1 : e X < X).
  { unfold e. pose proof (FP X ltac:(unfold X; lra)) as FX. set (f := F / (X * nh)) in *.
    pose proof (hel_range n _ f GOOD T FX) as HR. pose proof (hyd_range n _ f GOOD T FX) as HH.
    assert (yy helium * hel n t f <= yy helium * 2) by (apply Rmult_le_compat_l; lra).
    assert (EX : X = 1 + 2 * yy helium) by reflexivity. unfold eb. lra. }
  destruct (IVT_interv (fun x => x - e x) x0 X) as (x & XR & XZ).
  - intros a HA. apply continuity_pt_filterlim. apply (ex_derive_continuous (fun x => x - e x)).
    assert (NE : 0 < a * nh) by (apply Rmult_lt_0_compat; lra). pose proof (FP a ltac:(lra)) as FX.
    pose proof (i0_pos n t _ GOOD T FX) as I0. pose proof (i1_pos n t _ GOOD T FX) as I1. pose proof (ih_pos n t _ GOOD T FX) as IH.
    destruct (GOOD t T) as (_ & _ & _ & A2 & _). pose proof (recHep_pos n t GOOD T) as RP.
    pose proof (Rdiv_pos _ _ RP I0) as Q0. pose proof (Rdiv_pos _ _ I1 A2) as Q1.
    unfold e, eb, hyd, hel, heb, i0, i1 in *. clearbody F.
    set (al := alphaHp (recomb n) t) in *. set (rc := recHep n t) in *. set (app := alphaHepp (recomb n) t) in *.
    set (c0 := b2r (collisional n) * GammaeH0 (recomb n) t) in *. set (c1 := b2r (collisional n) * GammaeHe0 (recomb n) t) in *.
    set (c2 := b2r (collisional n) * GammaeHep (recomb n) t) in *. set (y := yy helium).
    set (g0 := gH0 n) in *. set (g1 := gHe0 n) in *. set (g2 := gHep n) in *.
    unfold Rdiv in *. auto_derive. repeat split; auto; lra.
  - unfold X; lra.
  - lra.
  - lra.
  - assert (XX : x < X). { destruct (Req_dec x X) as [-> | NX]; lra. }
    assert (B : balanced n s nh helium t x (hyd n t (F / (x * nh)))).
    { apply balanced_iff; auto; try lra. split; auto. change (x = e x). lra. }
    exists x, (hyd n t (F / (x * nh))).
    split. { split. lra. unfold X, yy in *. replace (helium / (2 * (1 - helium))) with (2 * (helium / 4 / (1 - helium))) by (field; lra). lra. }
    split. apply hyd_range; auto. apply FP; lra. split; auto.
    intros x' a' X' B'. apply balanced_iff in B' as [E' ->]; auto.
    assert (EQ : x' = x).
    { assert (Z : x = e x) by lra.
      assert (DEC : forall p q, 0 < p -> p < q -> e q < e p).
      { intros p q HP PQ. unfold e. apply eb_bright; auto. apply FP; lra. apply div_anti_lt; auto.
        apply Rmult_lt_0_compat; lra. }
      fold F in E'. change (x' = e x') in E'.
      destruct (Rtotal_order x x') as [L | [L | L]]; auto; exfalso.
      pose proof (DEC x x' ltac:(lra) L). lra. pose proof (DEC x' x X' L). lra. }
    subst x'. auto.
Qed.
