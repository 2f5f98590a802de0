(** Lemmas about cooling and heating. *)
From Coq Require Import List Reals Bool Lia Lra.
From Verif Require Import AbsorptionSpec RatesModel RatesSpec RatesProofs CoolModel CoolSpec.
Import ListNotations.
Local Open Scope R_scope.

(** ** Logarithms. *)

Lemma ln_tangent : forall u a, 0 < u -> 0 < a -> ln u <= ln a + (u / a - 1).
Proof.
  intros u a U A. pose proof (exp_ineq1_le (ln (u / a))) as H. rewrite exp_ln in H by (apply Rdiv_pos; assumption).
  unfold Rdiv in H at 1. rewrite ln_mult, ln_Rinv in H; [lra|assumption|assumption|apply Rinv_0_lt_compat; assumption].
Qed.

Lemma exp_double : forall x c d, 0 <= c -> c <= exp x -> d <= c * c -> d <= exp (2 * x).
Proof.
  intros x c d C H D. replace (2 * x) with (x + x) by ring. rewrite exp_plus.
  apply (Rle_trans _ (c * c)); [exact D|]. apply Rmult_le_compat; assumption.
Qed.

Lemma exp_494 : 130 <= exp 4.94.
Proof.
  replace 4.94 with (2 * (2 * (2 * (2 * (2 * (2 * (2 * (2 * 0.019296875)))))))) by lra.
  apply (exp_double _ 11.5); [lra| |lra]. apply (exp_double _ 3.395); [lra| |lra]. apply (exp_double _ 1.843); [lra| |lra].
  apply (exp_double _ 1.3576); [lra| |lra]. apply (exp_double _ 1.1652); [lra| |lra]. apply (exp_double _ 1.07945); [lra| |lra].
  apply (exp_double _ 1.038966); [lra| |lra]. apply (exp_double _ 1.019296875); [lra| |lra].
  pose proof (exp_ineq1_le 0.019296875). lra.
Qed.

Lemma exp_54 : 205 <= exp 5.4.
Proof.
  replace 5.4 with (2 * (2 * (2 * (2 * (2 * (2 * (2 * (2 * 0.02109375)))))))) by lra.
  apply (exp_double _ 14.4); [lra| |lra]. apply (exp_double _ 3.8); [lra| |lra]. apply (exp_double _ 1.95); [lra| |lra].
  apply (exp_double _ 1.3965); [lra| |lra]. apply (exp_double _ 1.18174); [lra| |lra]. apply (exp_double _ 1.08708); [lra| |lra].
  apply (exp_double _ 1.042632); [lra| |lra]. apply (exp_double _ 1.02109375); [lra| |lra].
  pose proof (exp_ineq1_le 0.02109375). lra.
Qed.

Lemma ln_le_exp : forall a b, 0 < a -> a <= exp b -> ln a <= b.
Proof.
  intros a b A H. destruct (Rle_dec (ln a) b) as [L|L]; [exact L|]. exfalso.
  apply Rnot_le_lt in L. apply exp_increasing in L. rewrite exp_ln in L by exact A. lra.
Qed.

(** 5.914 - 0.5 ln T + 0.01184 T^(1/3) and its like stay positive for every temperature. *)
Lemma spitzer_pos : forall c k a b t, 0 < t -> 0 < a -> k * a = 1.5 -> a <= exp b -> 1.5 * b < c + 1.5 ->
  0 < c - 0.5 * ln t + k * Rpower t (1 / 3).
Proof.
  intros c k a b t T A K E B. set (u := Rpower t (1 / 3)).
  assert (U : 0 < u) by apply Rpower_pos.
  assert (L : ln t = 3 * ln u) by (unfold u, Rpower; rewrite ln_exp; field).
  pose proof (ln_tangent u a U A) as Tg. pose proof (ln_le_exp a b A E) as Lb. rewrite L.
  assert (Ku : k * u = 1.5 * (u / a)) by (rewrite <- K; field; lra).
  rewrite Ku. lra.
Qed.

Lemma log10_le : forall x k, 0 < x -> x <= exp (k * ln 10) -> log10 x <= k.
Proof.
  intros x k X H. assert (L : 0 < ln 10) by (rewrite <- ln_1; apply ln_increasing; lra).
  unfold log10. apply (Rmult_le_reg_r (ln 10)); [exact L|]. unfold Rdiv. rewrite Rmult_assoc, Rinv_l, Rmult_1_r by lra.
  apply ln_le_exp; assumption.
Qed.

Lemma log10_ge : forall x k, 0 < x -> exp (k * ln 10) <= x -> k <= log10 x.
Proof.
  intros x k X H. assert (L : 0 < ln 10) by (rewrite <- ln_1; apply ln_increasing; lra).
  unfold log10. apply (Rmult_le_reg_r (ln 10)); [exact L|]. unfold Rdiv. rewrite Rmult_assoc, Rinv_l, Rmult_1_r by lra.
  destruct (Rle_dec (k * ln 10) (ln x)) as [Q|Q]; [exact Q|]. exfalso. apply Rnot_le_lt in Q.
  apply exp_increasing in Q. rewrite exp_ln in Q by exact X. lra.
Qed.

Lemma pow10 : forall n, exp (INR n * ln 10) = 10 ^ n.
Proof.
  intros n. rewrite <- Rpower_pow by lra. reflexivity.
Qed.

(** ** The coefficients. *)

Definition tables (c : cooling) : Prop := c = kwh \/ c = sherwood \/ c = nyx.

(** The Nyx free-free rate is for temperatures up to 1e17 K. *)
Definition in_range (c : cooling) (t : R) : Prop := c = nyx -> 2 <= t <= 1e17.

Lemma good_cool : forall c, tables c -> good (c_recomb c).
Proof. intros c [-> | [-> | ->]]; cbn [c_recomb kwh sherwood nyx]; [apply good_cen92|apply good_verner96|apply good_cen92]. Qed.

Lemma t5_pos : forall c t, 0 < t5 c t.
Proof. intros; unfold t5. pose proof (Rpower_pos (t / c_t5_corr c) 0.5). lra. Qed.

Lemma eV_pos : 0 < eV_in_ergs.
Proof. unfold eV_in_ergs; lra. Qed.
Lemma kB_pos : 0 < kB.
Proof. unfold kB; lra. Qed.

Lemma collisional_pos : forall c t, tables c -> 0 < t ->
  0 < collisional_H0 c t /\ 0 < collisional_He0 c t /\ 0 < collisional_HeP c t.
Proof.
  intros c t C T. destruct (good_cool c C t T) as (_ & _ & _ & _ & A & B & D).
  pose proof (t5_pos c t) as P. pose proof eV_pos as V.
  assert (X1 : 0 < excite_H0 c t).
  { unfold excite_H0. apply Rdiv_pos; [|exact P]. apply Rmult_lt_0_compat; [lra|apply exp_pos]. }
  assert (X2 : 0 < excite_He0 c t).
  { unfold excite_He0. apply Rdiv_pos; [|exact P].
    apply Rmult_lt_0_compat; [|apply exp_pos]. apply Rmult_lt_0_compat; [lra|apply Rpower_pos]. }
  assert (X3 : 0 < excite_HeP c t).
  { unfold excite_HeP. apply Rdiv_pos; [|exact P].
    apply Rmult_lt_0_compat; [|apply exp_pos]. apply Rmult_lt_0_compat; [lra|apply Rpower_pos]. }
  assert (I1 : 0 < ionize_H0 c t) by (unfold ionize_H0; apply Rmult_lt_0_compat; [apply Rmult_lt_0_compat; lra|lra]).
  assert (I2 : 0 < ionize_He0 c t) by (unfold ionize_He0; apply Rmult_lt_0_compat; [apply Rmult_lt_0_compat; lra|lra]).
  assert (I3 : 0 < ionize_HeP c t) by (unfold ionize_HeP; apply Rmult_lt_0_compat; [apply Rmult_lt_0_compat; lra|lra]).
  unfold collisional_H0, collisional_He0, collisional_HeP. repeat split; try lra.
  destruct (c_nyx c); [|lra]. unfold nyx_H0. apply Rmult_lt_0_compat; [lra|apply exp_pos].
Qed.

Lemma recomb_pos : forall c t, tables c -> 0 < t ->
  0 < recomb_Hp c t /\ 0 < recomb_HeP c t /\ 0 < recomb_HePP c t.
Proof.
  intros c t C T. destruct (good_cool c C t T) as (A & B & D & E & _).
  pose proof kB_pos as K. pose proof (sqrt_lt_R0 t T) as Q.
  unfold recomb_Hp, recomb_HeP, recomb_HePP, recomb_dielect. repeat split.
  - destruct (c_nyx c).
    + apply Rmult_lt_0_compat; [lra|].
      apply (spitzer_pos 5.914 0.01184 (1.5 / 0.01184) 4.94); try lra. pose proof exp_494. lra.
    + apply Rmult_lt_0_compat; [apply Rmult_lt_0_compat; [apply Rmult_lt_0_compat|]|]; lra.
  - assert (0 <= 0.75 * kB * t * alphaHep (c_recomb c) t) by (apply Rmult_le_pos; [apply Rmult_le_pos; [apply Rmult_le_pos|]|]; lra). lra.
  - destruct (c_nyx c).
    + apply Rmult_lt_0_compat; [lra|].
      apply (spitzer_pos 6.607 7.459e-3 (1.5 / 7.459e-3) 5.4); try lra. pose proof exp_54. lra.
    + apply Rmult_lt_0_compat; [apply Rmult_lt_0_compat; [apply Rmult_lt_0_compat|]|]; lra.
Qed.

Lemma gff_pos : forall c t zz, tables c -> 0 < t -> in_range c t -> (zz = 1 \/ zz = 2) -> 0 < gff c t zz.
Proof.
  intros c t zz C T G Z. unfold gff. destruct (c_nyx c) eqn:N.
  - assert (c = nyx) as E by (destruct C as [-> | [-> | ->]]; [discriminate|discriminate|reflexivity]).
    specialize (G E). cbv zeta.
    assert (Y : 0.1 <= t / zz ^ 2 <= 1e17) by (destruct Z as [-> | ->]; lra).
    assert (Y0 : 0 < t / zz ^ 2) by lra.
    set (y := t / zz ^ 2) in *.
    destruct (Rle_dec y 3.2e5) as [L|L].
    + assert (-1 <= log10 y).
      { apply log10_ge; [lra|]. replace (-1 * ln 10) with (- (INR 1 * ln 10)) by (cbn [INR]; ring).
        rewrite exp_Ropp, pow10. lra. }
      lra.
    + assert (log10 y <= 17).
      { apply log10_le; [lra|]. replace 17 with (INR 17) by (cbn; lra). rewrite pow10. lra. }
      lra.
  - pose proof (exp_pos (- (5.5 - log10 t) ^ 2 / 3)). lra.
Qed.

Lemma free_free_pos : forall c t zz, tables c -> 0 < t -> in_range c t -> (zz = 1 \/ zz = 2) -> 0 < free_free c t zz.
Proof.
  intros c t zz C T G Z. unfold free_free. pose proof (gff_pos c t zz C T G Z). pose proof (sqrt_lt_R0 t T).
  apply Rmult_lt_0_compat; [|assumption]. apply Rmult_lt_0_compat; [|destruct Z as [-> | ->]; lra].
  apply Rmult_lt_0_compat; lra.
Qed.

Lemma compton_sign : forall c t z, tables c -> 0 <= z -> 2.7255 * (1 + z) <= t -> 0 <= inverse_compton c t z.
Proof.
  intros c t z C Z T. unfold inverse_compton. cbv zeta.
  assert (E : c_tcmb c = 2.7255) by (destruct C as [-> | [-> | ->]]; reflexivity). rewrite E.
  pose proof kB_pos. assert (0 <= (2.7255 * (1 + z)) ^ 4) by (apply pow_le; lra).
  apply Rmult_le_pos; [apply Rmult_le_pos; [apply Rmult_le_pos|]|]; lra.
Qed.

(** ** One element. *)

Lemma some_he0 : forall n nh t x he0, shipped (recomb n) -> 0 <= photo_factor n -> 0 < nh -> 0 < t ->
  nHe0 n nh t x = Some he0 -> collisional n = true \/ (0 < photo_factor n /\ 1e-40 < x).
Proof.
  intros n nh t x he0 Sh P N T H. destruct (collisional n) eqn:C; [left; reflexivity|right].
  unfold nHe0, ionHe0, photofac in H. rewrite C in H. cbn [b2r] in H.
  destruct (Rlt_dec 1e-40 x) as [X|X].
  - split; [|exact X]. destruct (Req_dec (photo_factor n) 0) as [Z|Z]; [|lra]. rewrite Z in H.
    destruct (Req_EM_T _ 0) as [Q|Q]; [discriminate|]. exfalso. apply Q. unfold Rdiv. ring.
  - destruct (Req_EM_T _ 0) as [Q|Q]; [discriminate|]. exfalso. apply Q. ring.
Qed.

Definition heat_factor (n : thermal) (density : R) : R :=
  match he_model n with Some m => he_reion_factor m (redshift n) density | None => 1 end.

Lemma cooling1_energy : forall n density u helium ne ph v,
  shipped (recomb (net n)) -> 0 <= photo_factor (net n) -> 0 < density -> 0 < u -> 0 <= helium < 1 -> 0 <= ne ->
  cooling1 n density u helium ne ph = Some v ->
  exists t nHI nHII nHeI nHeII nHeIII,
    get_temp (ne / (density * (1 - helium))) u helium = Some t /\ 0 < t /\
    0 <= nHI /\ 0 <= nHII /\ 0 <= nHeI /\ 0 <= nHeII /\ 0 <= nHeIII /\
    nHI + nHII = density * (1 - helium) /\ nHeI + nHeII + nHeIII = density * helium / 4 /\
    nHII + nHeII + 2 * nHeIII = density * (1 - helium) * nebynh (net n) (density * (1 - helium)) t (ne / (density * (1 - helium))) helium /\
    v * (density * 1.67262178e-24) =
      encounters ne [(collisional_H0 (cool n) t, nHI); (collisional_He0 (cool n) t, nHeI); (collisional_HeP (cool n) t, nHeII);
                     (recomb_Hp (cool n) t, nHII); (recomb_HeP (cool n) t, nHeII); (recomb_HePP (cool n) t, nHeIII);
                     (free_free (cool n) t 1, nHII + nHeII); (free_free (cool n) t 2, nHeIII)]
      + ne * ne * inverse_compton (cool n) t (redshift n)
      - (if ph then photo_factor (net n) * heat_factor n density *
           (epsH0 n * nHI + epsHe0 n * nHeI + epsHep n * nHeII) else 0).
Proof.
  intros n density u helium ne ph v Sh P D U H NE E.
  set (nh := density * (1 - helium)) in *. assert (Nh : 0 < nh) by (unfold nh; apply Rmult_lt_0_compat; lra).
  set (x := ne / nh) in *. assert (X : 0 <= x) by (unfold x; apply Rmult_le_pos; [exact NE|left; apply Rinv_0_lt_compat; exact Nh]).
  destruct (C38_temperature_aux x u helium X U H) as (t & Gt & T & _).
  unfold cooling1 in E. fold nh in E. fold x in E. rewrite Gt in E.
  destruct (nHe0 (net n) nh t x) as [he0|] eqn:Eh; [|discriminate].
  pose proof (some_he0 _ _ _ _ _ Sh P Nh T Eh) as Cn.
  destruct (C38_fractions_aux (net n) nh t x helium Sh P Nh T H Cn) as (F1 & F2 & F3 & (he0' & Eh' & F4 & F5 & F6 & F7) & F8 & _).
  rewrite Eh in Eh'. injection Eh' as <-.
  set (h0 := nH0 (net n) nh t x) in *. set (hp := nHp (net n) nh t x) in *.
  set (hep := nHep (net n) nh t x) in *. set (hepp := nHepp (net n) nh t x) in *.
  destruct F1 as [F1 _]. destruct F2 as [F2 _]. destruct F4 as [F4 _]. destruct F5 as [F5 _]. destruct F6 as [F6 _].
  assert (Y : 0 <= density * helium / 4) by (unfold Rdiv; apply Rmult_le_pos; [apply Rmult_le_pos|]; lra).
  exists t, (h0 * nh), (hp * nh), (he0 * (density * helium / 4)), (hep * (density * helium / 4)), (hepp * (density * helium / 4)).
  split; [exact Gt|]. split; [exact T|].
  repeat (split; [apply Rmult_le_pos; lra|]).
  split; [replace (h0 * nh + hp * nh) with ((h0 + hp) * nh) by ring; rewrite F3; ring|].
  split; [rewrite <- 2 Rmult_plus_distr_r, F7; ring|].
  split; [rewrite F8; unfold nh; field; lra|].
  cbv zeta in E. injection E as <-.
  assert (Ex : ne = x * nh) by (unfold x; field; lra).
  assert (Ey : density * helium / 4 = yy helium * nh) by (unfold yy, nh; field; lra).
  rewrite Ey, Ex. unfold encounters, rsum, protonmass, heat_factor. cbn [map fold_right fst snd].
  assert (Ed : density = nh / (1 - helium)) by (unfold nh; field; lra).
  assert (Hh : 1 - helium <> 0) by lra.
  destruct ph; [destruct (he_model n) as [m|]|].
  - set (f := he_reion_factor m (redshift n) density). clearbody f. rewrite Ed. clearbody nh x h0 hp hep hepp.
    field. lra.
  - rewrite Ed. clearbody nh x h0 hp hep hepp. field. lra.
  - rewrite Ed. clearbody nh x h0 hp hep hepp. field. lra.
Qed.

Lemma encounters_pos : forall ne l, 0 <= ne -> (forall kn, In kn l -> 0 <= fst kn /\ 0 <= snd kn) -> 0 <= encounters ne l.
Proof.
  intros ne l N H. unfold encounters. apply Rmult_le_pos; [exact N|].
  induction l as [|a l IH]; unfold rsum in *; cbn [map fold_right]; [lra|].
  destruct (H a (or_introl eq_refl)) as [A B]. pose proof (Rmult_le_pos _ _ A B).
  pose proof (IH (fun kn I => H kn (or_intror I))). lra.
Qed.

Lemma C65_energy_aux : forall n maxiter density u helium ph v,
  shipped (recomb (net n)) -> tables (cool n) -> 0 <= photo_factor (net n) -> 0 < density -> 0 < u -> 0 <= helium < 1 ->
  get_cooling_rate n maxiter density u helium ph = Value v ->
  exists ne t nHI nHII nHeI nHeII nHeIII,
    get_equilib_ne (net n) maxiter [density] [u] helium = Value [ne] /\ 0 <= ne /\
    get_temp (ne / (density * (1 - helium))) u helium = Some t /\ 0 < t /\
    0 <= nHI /\ 0 <= nHII /\ 0 <= nHeI /\ 0 <= nHeII /\ 0 <= nHeIII /\
    nHI + nHII = density * (1 - helium) /\ nHeI + nHeII + nHeIII = density * helium / 4 /\
    Rabs (nHII + nHeII + 2 * nHeIII - ne) < converge (net n) * (density * (1 - helium)) /\
    (let lost := encounters ne [(collisional_H0 (cool n) t, nHI); (collisional_He0 (cool n) t, nHeI); (collisional_HeP (cool n) t, nHeII);
                     (recomb_Hp (cool n) t, nHII); (recomb_HeP (cool n) t, nHeII); (recomb_HePP (cool n) t, nHeIII);
                     (free_free (cool n) t 1, nHII + nHeII); (free_free (cool n) t 2, nHeIII)] in
     (in_range (cool n) t -> 0 <= lost) /\
     v * (density * 1.67262178e-24) =
       lost + ne * ne * inverse_compton (cool n) t (redshift n)
       - (if ph then photo_factor (net n) * heat_factor n density *
            (epsH0 n * nHI + epsHe0 n * nHeI + epsHep n * nHeII) else 0)).
Proof.
  intros n maxiter density u helium ph v Sh Ct P D U H E.
  unfold get_cooling_rate in E. destruct (get_equilib_ne (net n) maxiter [density] [u] helium) as [ne| | |] eqn:Eq; try discriminate.
  destruct ne as [|ne rest]; [discriminate|]. destruct rest; [|discriminate].
  destruct (cooling1 n density u helium ne ph) as [w|] eqn:Ec; [|discriminate]. injection E as <-.
  destruct (C40_solution_aux (net n) maxiter [density] [u] helium Sh P H eq_refl) as [_ So];
    [repeat constructor; lra|repeat constructor; lra|].
  destruct (So [ne] Eq) as [_ Si]. specialize (Si 0%nat density u ne eq_refl eq_refl eq_refl). cbv zeta in Si.
  destruct Si as [[N1 N2] (t & Gt & T & Cv)].
  destruct (cooling1_energy n density u helium ne ph w Sh P D U H N1 Ec)
    as (t' & nHI & nHII & nHeI & nHeII & nHeIII & Gt' & T' & A1 & A2 & A3 & A4 & A5 & B1 & B2 & B3 & B4).
  rewrite Gt in Gt'. injection Gt' as <-.
  exists ne, t, nHI, nHII, nHeI, nHeII, nHeIII.
  split; [reflexivity|]. split; [exact N1|]. split; [exact Gt|]. split; [exact T|].
  repeat (split; [assumption|]).
  split.
  - set (nh := density * (1 - helium)) in *. assert (Nh : 0 < nh) by (unfold nh; apply Rmult_lt_0_compat; lra).
    rewrite B3. replace (nh * nebynh (net n) nh t (ne / nh) helium - ne)
      with ((nebynh (net n) nh t (ne / nh) helium - ne / nh) * nh) by (field; lra).
    rewrite Rabs_mult, (Rabs_right nh) by lra. apply Rmult_lt_compat_r; assumption.
  - cbv zeta. split; [|exact B4]. intros Gr. apply encounters_pos; [exact N1|].
    destruct (collisional_pos _ _ Ct T) as (K1 & K2 & K3). destruct (recomb_pos _ _ Ct T) as (K4 & K5 & K6).
    pose proof (free_free_pos _ _ 1 Ct T Gr (or_introl eq_refl)). pose proof (free_free_pos _ _ 2 Ct T Gr (or_intror eq_refl)).
    intros kn I. cbn [In] in I. repeat (destruct I as [<-|I]; [cbn [fst snd]; lra|]). destruct I.
Qed.
