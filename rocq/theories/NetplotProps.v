(** C121, C122: the plots of the rate network. *)
From Coq Require Import Reals List Bool Arith Lia Lra.
From Verif Require Import RatesModel RatesSpec RatesProofs IoniseSpec IoniseProofs IoniseProofs2.
From Verif Require Import NetplotModel NetplotSpec NetplotProofs NetplotProofs2 NetplotProofs3 NetplotProofs4 NetplotProofs5 NetplotProofs6.
From Verif Require TempdensSpec GridModel GridProofs4 IoniseProofs4 IoniseProofs5.
Import ListNotations.
Local Open Scope R_scope.

(** ** C121: what the plots compare *)

(** Every contour plot has a point for each of a hundred densities and a hundred energies.  The ordinate is the temperature of gas of
    one density, the middle one, not of the gas of the point. *)
Theorem C121_axes : forall zfunc n mi pts, shipped (recomb n) -> 0 < photo_factor n -> selfshield n = false ->
  (forall d u z, zfunc d u = Value z -> length d = length u -> List.Forall (fun x => 0 < x) d -> List.Forall (fun x => 0 < x) u -> length z = length d) ->
  make_cont_plot zfunc n mi = Value pts ->
  length pts = (100 * 100)%nat /\
  exists gridd gridt z, zfunc gridd gridt = Value z /\ length gridd = length gridt /\
    List.Forall (fun x => 0 < x) gridd /\ List.Forall (fun x => 0 < x) gridt /\ TempdensSpec.is_median gridd middle_density /\
    forall i j, (i < 100)%nat -> (j < 100)%nat ->
    nth_error gridd (100 * j + i) = Some (axis_density i) /\ nth_error gridt (100 * j + i) = Some (axis_energy j) /\
    exists m t v, nth_error z (100 * j + i) = Some v /\ nth_error pts (100 * j + i) = Some (axis_density i, t / 1e4, v) /\
      settled n (converge n) middle_density (axis_energy j) m t.
Proof. exact C121_axes_aux. Qed.

(** The simple formula: recombination balanced against the background when hydrogen and helium are bare, but at the temperature of the
    gas of median density; the ratio to the full fraction is at most the ratio of the recombination rates, so at most 1 in gas which is
    no colder. *)
Theorem C121_simple : forall n mi, shipped (recomb n) -> 0 < photo_factor n -> selfshield n = false -> forall gridd gridt,
  length gridd = length gridt -> List.Forall (fun d => 0 < d) gridd -> List.Forall (fun e => 0 < e) gridt ->
  forall rs, simple_ratio n mi gridd gridt = Value rs ->
  length rs = length gridd /\
  forall i d u r, nth_error gridd i = Some d -> nth_error gridt i = Some u -> nth_error rs i = Some r ->
  exists med m t m' s a, TempdensSpec.is_median gridd med /\ settled n (converge n) d u m t /\ settled n (converge n) med u m' s /\
    0 < a <= 1 /\ r * (alphaHp (recomb n) s * (0.76 * d) * (1 + 2 * (0.24 / (4 * 0.76)))) = a * Rpower 10 (lg_gH0 n) /\
    (1e-40 < m / (0.76 * d) -> hydrogen_at n m t a (1 - a) /\
       r * photo_factor n * alphaHp (recomb n) s <= alphaHp (recomb n) t /\
       (s <= t -> within (recomb n) t -> r * photo_factor n <= 1)).
Proof. exact C121_simple_aux. Qed.

Theorem C121_simpleplot : forall a b c o mi, let n := c92_network a b c o true in
  forall pts, simpleplot a b c o mi = Value pts -> length pts = (100 * 100)%nat /\
  forall i j, (i < 100)%nat -> (j < 100)%nat -> exists v ms s m t ms' s' f,
    nth_error pts (100 * j + i) = Some (axis_density i, s / 1e4, v) /\
    settled n 1e-7 middle_density (axis_energy j) ms s /\ settled n 1e-7 (axis_density i) (axis_energy j) m t /\
    settled n 1e-7 middle_density (axis_energy j) ms' s' /\ 0 < f <= 1 /\
    v * (cen_alphaHp s' * (0.76 * axis_density i) * (1 + 2 * (0.24 / (4 * 0.76)))) = f * Rpower 10 a /\
    (1e-40 < m / (0.76 * axis_density i) -> hydrogen_at n m t f (1 - f) /\ v * cen_alphaHp s' <= cen_alphaHp t /\ (s' <= t -> v <= 1)).
Proof. exact C121_simpleplot_aux. Qed.

(** The electrons as a fraction of those of fully ionised gas. *)
Theorem C121_electrons : forall n mi, shipped (recomb n) -> 0 < photo_factor n -> selfshield n = false -> forall gridd gridt,
  length gridd = length gridt -> List.Forall (fun d => 0 < d) gridd -> List.Forall (fun e => 0 < e) gridt ->
  forall rs, ne_ratio n mi gridd gridt = Value rs ->
  length rs = length gridd /\
  forall i d u r, nth_error gridd i = Some d -> nth_error gridt i = Some u -> nth_error rs i = Some r ->
  exists m t, settled n (converge n) d u m t /\ 0 <= r <= 1 /\ r * ((1 + 2 * (0.24 / (4 * 0.76))) * (0.76 * d)) = m.
Proof. exact C121_electrons_aux. Qed.

Theorem C121_neplot : forall a b c o mi, let n := c92_network a b c o true in
  forall pts, neplot a b c o mi = Value pts -> length pts = (100 * 100)%nat /\
  forall i j, (i < 100)%nat -> (j < 100)%nat -> exists v t ms m s, nth_error pts (100 * j + i) = Some (axis_density i, s / 1e4, v) /\
    settled n 1e-7 middle_density (axis_energy j) ms s /\ settled n 1e-7 (axis_density i) (axis_energy j) m t /\
    0 <= v <= 1 /\ v * ((1 + 2 * (0.24 / (4 * 0.76))) * (0.76 * axis_density i)) = m.
Proof. exact C121_neplot_aux. Qed.

(** The effect of collisions: the quotient of the neutral fractions with and without them, at the same density and energy. *)
Theorem C121_collis : forall n mi gridd gridt rs, shipped (recomb n) -> 0 < photo_factor n -> selfshield n = false ->
  length gridd = length gridt -> List.Forall (fun d => 0 < d) gridd -> List.Forall (fun e => 0 < e) gridt ->
  collis_ratio (colliding n true) (colliding n false) mi gridd gridt = Value rs ->
  length rs = length gridd /\
  forall i d u r, nth_error gridd i = Some d -> nth_error gridt i = Some u -> nth_error rs i = Some r ->
  exists m t m' t' a a', settled (colliding n true) (converge n) d u m t /\ settled (colliding n false) (converge n) d u m' t' /\
    0 < a <= 1 /\ 0 < a' <= 1 /\ r = a / a' /\
    (1e-40 < m / (0.76 * d) -> hydrogen_at (colliding n true) m t a (1 - a)) /\
    (1e-40 < m' / (0.76 * d) -> hydrogen_at (colliding n false) m' t' a' (1 - a')).
Proof. exact C121_collis_aux. Qed.

Theorem C121_collisplot : forall a b c o mi, let n := c92_network a b c o true in
  forall pts, collisplot a b c o mi = Value pts -> length pts = (100 * 100)%nat /\
  forall i j, (i < 100)%nat -> (j < 100)%nat -> exists v ms s m t m' t' f f',
    nth_error pts (100 * j + i) = Some (axis_density i, s / 1e4, v) /\
    settled n 1e-7 middle_density (axis_energy j) ms s /\ settled (colliding n true) 1e-7 (axis_density i) (axis_energy j) m t /\
    settled (colliding n false) 1e-7 (axis_density i) (axis_energy j) m' t' /\ 0 < f <= 1 /\ 0 < f' <= 1 /\ v = f / f' /\
    (1e-40 < m / (0.76 * axis_density i) -> hydrogen_at (colliding n true) m t f (1 - f)) /\
    (1e-40 < m' / (0.76 * axis_density i) -> hydrogen_at (colliding n false) m' t' f' (1 - f')).
Proof. exact C121_collisplot_aux. Qed.

(** Collisions free electrons at given temperature and at given energy, where they also cool. *)
Theorem C121_electrons_temperature : forall n s nh helium t x x' a a',
  shipped (recomb n) -> 0 < photo_factor n -> 0 < s -> 0 < nh -> 0 <= helium < 1 -> 0 < t -> 0 < x -> 0 < x' ->
  balanced (colliding n true) s nh helium t x a -> balanced (colliding n false) s nh helium t x' a' -> x' < x.
Proof. exact C121_electrons_temperature_aux. Qed.

Theorem C121_electrons_energy : forall n nh helium u tm x t a x' t' a',
  0 < photo_factor n -> 0 < nh -> 0 <= helium < 4 / 7 -> 0 < u -> thermal u helium 0 tm -> within (recomb n) tm ->
  0 < x -> thermal u helium x t -> balanced (colliding n true) (self_shield_corr n nh t) nh helium t x a ->
  0 < x' -> thermal u helium x' t' -> balanced (colliding n false) (self_shield_corr n nh t') nh helium t' x' a' ->
  x' < x /\ t < t'.
Proof. exact C121_electrons_energy_aux. Qed.

(** Without helium the neutral fraction falls. *)
Theorem C121_hydrogen_only : forall n nh u tm x t a x' t' a',
  0 < photo_factor n -> 0 < nh -> 0 < u -> thermal u 0 0 tm -> within (recomb n) tm ->
  0 < x -> thermal u 0 x t -> balanced (colliding n true) (self_shield_corr n nh t) nh 0 t x a ->
  0 < x' -> thermal u 0 x' t' -> balanced (colliding n false) (self_shield_corr n nh t') nh 0 t' x' a' ->
  a < a'.
Proof. exact C121_hydrogen_only_aux. Qed.

(** With helium it can rise: gas at a million degrees in which only collisions ionise He+. *)
Theorem C121_collisions_refuted : exists n u x t a x' t' a', n = c92_network (-12) (-12) (-30) 2.15e-18 true /\
  0 < u /\ 0 < x' < x /\ thermal u 0.24 x t /\ thermal u 0.24 x' t' /\ 9e5 <= t <= 1e6 /\ t' = 1e6 /\
  balanced (colliding n true) 1 1e-7 0.24 t x a /\ balanced (colliding n false) 1 1e-7 0.24 t' x' a' /\
  0 < a' < a /\ a < 1.
Proof.
  destruct C121_collisions_refuted_aux as (u & x & t & a & x' & t' & a' & H).
  exists (c92_network (-12) (-12) (-30) 2.15e-18 true), u, x, t, a, x', t', a'. split; [reflexivity|exact H].
Qed.

(** ** C122: what two of the titles say *)

(** The plot called He+ over He++ shows another number: electrons per volume are used where electrons per hydrogen atom are expected, so
    the number is the ratio only if there is one hydrogen atom per cubic centimetre, and too small below. *)
Theorem C122_helium_refuted : forall n mi, shipped (recomb n) -> 0 < photo_factor n -> selfshield n = false -> forall gridd gridt,
  length gridd = length gridt -> List.Forall (fun d => 0 < d) gridd -> List.Forall (fun e => 0 < e) gridt ->
  forall rs, he_ratio n mi gridd gridt = Value rs ->
  length rs = length gridd /\
  forall i d u r, nth_error gridd i = Some d -> nth_error gridt i = Some u -> nth_error rs i = Some r ->
  exists med m t m' s, TempdensSpec.is_median gridd med /\ settled n (converge n) d u m t /\ settled n (converge n) med u m' s /\
    (1e-40 < m -> forall he0 he1 he2, helium_at n m s he0 he1 he2 ->
       (r * he2 = he1 <-> 0.76 * d = 1) /\ (0.76 * d < 1 -> 0 < r * he2 < he1) /\
       (collisional n = false -> r * he2 = 0.76 * d * he1)).
Proof. exact C122_helium_aux. Qed.

Theorem C122_heplot_refuted : forall a b c o mi, let n := c92_network a b c o true in
  forall pts, hefracplot a b c o mi = Value pts -> length pts = (100 * 100)%nat /\
  forall i j, (i < 100)%nat -> (j < 100)%nat -> exists v t ms m s, nth_error pts (100 * j + i) = Some (axis_density i, s / 1e4, v) /\
    settled n 1e-7 middle_density (axis_energy j) ms s /\ settled n 1e-7 (axis_density i) (axis_energy j) m t /\
    (1e-40 < m -> exists s', (exists ms', settled n 1e-7 middle_density (axis_energy j) ms' s') /\
       forall he0 he1 he2, helium_at n m s' he0 he1 he2 -> 0 < v * he2 < he1).
Proof. exact C122_heplot_aux. Qed.

(** The plot called H0 over H+ shows H0 over all hydrogen, which is less. *)
Theorem C122_hydrogen_refuted : forall n mi gridd gridt fs, shipped (recomb n) -> 0 < photo_factor n -> selfshield n = false ->
  length gridd = length gridt -> List.Forall (fun d => 0 < d) gridd -> List.Forall (fun e => 0 < e) gridt ->
  get_neutral_fraction n mi gridd gridt 0.24 = Value fs ->
  length fs = length gridd /\
  forall i d u f, nth_error gridd i = Some d -> nth_error gridt i = Some u -> nth_error fs i = Some f ->
  exists m t, settled n (converge n) d u m t /\
    (1e-40 < m / (0.76 * d) -> forall a b, hydrogen_at n m t a b -> f = a /\ 0 < b < 1 /\ f < a / b /\ f * (1 + a / b) = a / b).
Proof. exact C122_hydrogen_aux. Qed.

Theorem C122_hplot_refuted : forall a b c o mi, let n := c92_network a b c o true in
  forall pts, hfracplot a b c o mi = Value pts -> length pts = (100 * 100)%nat /\
  forall i j, (i < 100)%nat -> (j < 100)%nat -> exists v ms s m t,
    nth_error pts (100 * j + i) = Some (axis_density i, s / 1e4, v) /\
    settled n 1e-7 middle_density (axis_energy j) ms s /\ settled n 1e-7 (axis_density i) (axis_energy j) m t /\
    (1e-40 < m / (0.76 * axis_density i) -> forall f g, hydrogen_at n m t f g -> v = f /\ 0 < g < 1 /\ v < f / g).
Proof. exact C122_hplot_aux. Qed.

(** ** Examples *)

(** A network with a loose tolerance, for which every array can be shown to be computed. *)
Definition loose_thin : network := Network cen92 (-12) (-12) (-15) 1 true false 2.15e-18 0.17 10.

Example C121_example : (exists rs, simple_ratio loose_thin 500 [0.01; 0.1] [100; 200] = Value rs) /\
  (exists rs, ne_ratio loose_thin 500 [0.01; 0.1] [100; 200] = Value rs) /\
  (exists rs, collis_ratio (colliding loose_thin true) (colliding loose_thin false) 500 [0.01; 0.1] [100; 200] = Value rs) /\
  (exists rs, he_ratio loose_thin 500 [0.01; 0.1] [100; 200] = Value rs) /\
  (exists fs, get_neutral_fraction loose_thin 500 [0.01; 0.1] [100; 200] 0.24 = Value fs).
Proof.
  assert (P : forall b, 0 <= photo_factor (colliding loose_thin b)) by (intros b; cbn; lra).
  assert (D : List.Forall (fun d => 0 < d <= 1) [0.01; 0.1]) by (repeat constructor; lra).
  assert (D' : List.Forall (fun d => 0 < d) [0.01; 0.1]) by (repeat constructor; lra).
  assert (U : List.Forall (fun d => 0 < d) [100; 200]) by (repeat constructor; lra).
  assert (M : 0 < middle [0.01; 0.1] <= 1).
  { split; [apply middle_pos; [discriminate|exact D']|].
    pose proof (middle_is [0.01; 0.1] ltac:(discriminate)) as IS. destruct IS as (lo & hi & H & LH & ->).
    assert (HL : TempdensSpec.halves [0.01; 0.1] hi) by (apply H; lra). assert (HH : TempdensSpec.halves [0.01; 0.1] lo) by (apply H; lra).
    assert (B : forall x, TempdensSpec.halves [0.01; 0.1] x -> x <= 0.1).
    { intros x [_ Q]. unfold TempdensSpec.count in Q. cbn [filter length] in Q.
      destruct (Rle_dec x 0.01); destruct (Rle_dec x 0.1); cbn [length] in Q; try lra; lia. }
    pose proof (B _ HL). pose proof (B _ HH). lra. }
  assert (DM : List.Forall (fun d => 0 < d <= 1) (map (fun _ => middle [0.01; 0.1]) [100; 200])) by (constructor; [exact M|constructor; [exact M|constructor]]).
  assert (SH : forall b, shipped (recomb (colliding loose_thin b))) by (intros b; left; reflexivity).
  destruct (GridProofs4.loose_network (colliding loose_thin true) 499 [0.01; 0.1] [100; 200] (SH true) (P true) eq_refl eq_refl D U) as [(fs & F) _].
  destruct (GridProofs4.loose_network (colliding loose_thin false) 499 [0.01; 0.1] [100; 200] (SH false) (P false) eq_refl eq_refl D U) as [(fs' & F') _].
  destruct (GridProofs4.loose_network (colliding loose_thin true) 499 (map (fun _ => middle [0.01; 0.1]) [100; 200]) [100; 200] (SH true) (P true) eq_refl eq_refl DM U) as [_ (ts & T)].
  destruct (GridProofs4.loose_equilib (colliding loose_thin true) 499 [0.01; 0.1] [100; 200] (SH true) (P true) eq_refl eq_refl D U) as (ne & N & _).
  change (colliding loose_thin true) with loose_thin in *.
  assert (ST : shown_temp loose_thin 500 [0.01; 0.1] [100; 200] = Value ts) by exact T.
  unfold simple_ratio, ne_ratio, collis_ratio, he_ratio, simplenh0frac, get_ne_by_nh, obind. rewrite F, F', N, ST.
  repeat split; eexists; reflexivity.
Qed.

(** Gas of any point of the plots has a settled state, with electrons. *)
Example C122_example : forall a b c o i j, (i < 100)%nat -> (j < 100)%nat -> exists m t f g h0 h1 h2,
  let n := c92_network a b c o true in settled n 1e-7 (axis_density i) (axis_energy j) m t /\
  0 < m / (0.76 * axis_density i) /\ hydrogen_at n m t f g /\ helium_at n m t h0 h1 h2.
Proof.
  intros a b c o i j I J. set (n := c92_network a b c o true).
  pose proof (axis_density_range i I) as D. pose proof (axis_energy_range j J) as U.
  set (d := axis_density i) in *. set (u := axis_energy j) in *. clearbody d u.
  set (tm := u * 1e10 * 1.67262178e-24 / (3 / 2 * 1.38066e-16 * particles_per_mass 0 0.24)).
  assert (TM : thermal u 0.24 0 tm).
  { unfold thermal, tm. assert (Q : 0 < 3 / 2 * 1.38066e-16 * particles_per_mass 0 0.24) by (unfold particles_per_mass; lra).
    replace (3 / 2 * 1.38066e-16 * (u * 1e10 * 1.67262178e-24 / (3 / 2 * 1.38066e-16 * particles_per_mass 0 0.24)) * particles_per_mass 0 0.24)
      with (u * 1e10 * 1.67262178e-24 * (/ (3 / 2 * 1.38066e-16 * particles_per_mass 0 0.24) * (3 / 2 * 1.38066e-16 * particles_per_mass 0 0.24)))
      by (unfold Rdiv; ring). rewrite Rinv_l by lra. lra. }
  destruct (IoniseProofs5.C103_exists_aux n (0.76 * d) 0.24 u tm ltac:(cbn; lra) ltac:(lra) ltac:(lra) ltac:(lra) TM ltac:(left; reflexivity))
    as (x & t & f & X & F & TH & g & h0 & h1 & h2 & HB & EB & EX).
  pose proof (IoniseProofs4.thermal_pos u 0.24 x t ltac:(lra) ltac:(lra) ltac:(lra) TH) as T.
  change (self_shield_corr n (0.76 * d) t) with 1 in *. rewrite !Rmult_1_r in HB. 
  change (photo_factor n) with 1 in EB. rewrite (Rmult_1_r (Rpower 10 (lg_gHe0 n) * 1)), (Rmult_1_r (Rpower 10 (lg_gHep n) * 1)) in EB.
  exists (x * (0.76 * d)), t, f, g, h0, h1, h2. cbv zeta.
  assert (XV : x * (0.76 * d) / (0.76 * d) = x). { assert (H : 0 < 0.76 * d) by lra. set (k := 0.76 * d) in *. clearbody k. field. lra. }
  assert (HA : hydrogen_at n (x * (0.76 * d)) t f g). { unfold hydrogen_at. change (photo_factor n) with 1. rewrite Rmult_1_r. exact HB. }
  assert (EA : helium_at n (x * (0.76 * d)) t h0 h1 h2) by exact EB.
  split; [|split; [rewrite XV; lra|split; [exact HA|exact EA]]].
  unfold settled. rewrite XV. split; [exact T|]. split; [split; [apply Rmult_le_pos; lra|apply Rmult_le_compat_r; lra]|]. split; [exact TH|].
  intros XX a' b' k0 k1 k2 HA' EA'.
  destruct (balances n ltac:(left; reflexivity) ltac:(cbn; lra) eq_refl (0.76 * d) t x ltac:(lra) T XX) as [B1 B2].
  apply B1 in HA as [_ G1]. apply B1 in HA' as [_ G2]. apply B2 in EA as (_ & G3 & G4). apply B2 in EA' as (_ & G5 & G6).
  rewrite G2, G5, G6, <- G1, <- G3, <- G4.
  replace (g + 0.24 / (4 * 0.76) * (h1 + 2 * h2) - x) with 0 by lra. rewrite Rabs_R0. lra.
Qed.

Print Assumptions C121_axes.
Print Assumptions C121_simple.
Print Assumptions C121_simpleplot.
Print Assumptions C121_electrons.
Print Assumptions C121_neplot.
Print Assumptions C121_collis.
Print Assumptions C121_collisplot.
Print Assumptions C121_electrons_temperature.
Print Assumptions C121_electrons_energy.
Print Assumptions C121_hydrogen_only.
Print Assumptions C121_collisions_refuted.
Print Assumptions C122_helium_refuted.
Print Assumptions C122_heplot_refuted.
Print Assumptions C122_hydrogen_refuted.
Print Assumptions C122_hplot_refuted.
