(** Properties C38 and C40: the rate network and its solver. *)
From Coq Require Import Reals List Bool Arith Lia Lra.
From Verif Require Import RatesModel RatesSpec RatesProofs.
Import ListNotations.
Local Open Scope R_scope.

(** C38.  For each of the three rate tables that are shipped ([shipped]), any
    temperature, density, photoionisation rates and electron abundance, the
    hydrogen fractions lie in [0,1] and sum to one, the helium fractions too,
    and the electron abundance lies in [0, 1+2y]. *)
Theorem C38_fractions : forall n nh t x helium,
  shipped (recomb n) -> 0 <= photo_factor n -> 0 < nh -> 0 < t -> 0 <= helium < 1 ->
  (collisional n = true \/ (0 < photo_factor n /\ 1e-40 < x)) ->
  fraction (nH0 n nh t x) /\ fraction (nHp n nh t x) /\
  nH0 n nh t x + nHp n nh t x = 1 /\
  (exists he0, nHe0 n nh t x = Some he0 /\ fraction he0 /\
     fraction (nHep n nh t x) /\ fraction (nHepp n nh t x) /\
     he0 + nHep n nh t x + nHepp n nh t x = 1) /\
  nebynh n nh t x helium
    = nHp n nh t x + helium / (4 * (1 - helium)) * (nHep n nh t x + 2 * nHepp n nh t x) /\
  0 <= nebynh n nh t x helium <= 1 + helium / (2 * (1 - helium)).
Proof. exact C38_fractions_aux. Qed.
Print Assumptions C38_fractions.

(** They are the only fractions in ionisation balance with the radiation
    field, attenuated by a shielding factor in (0,1] common to the three
    species. *)
Theorem C38_equilibrium : forall n nh t x,
  shipped (recomb n) -> 0 < photo_factor n -> 0 < nh -> 0 < t -> 1e-40 < x ->
  exists shield, 0 < shield <= 1 /\ (selfshield n = false -> shield = 1) /\
  let ne := x * nh in
  let r := recomb n in
  let coll := if collisional n then 1 else 0 in
  let photo g := g * photo_factor n * shield in
  (forall a b,
     hydrogen_balance ne (alphaHp r t) (coll * GammaeH0 r t) (photo (Rpower 10 (lg_gH0 n))) a b <->
     a = nH0 n nh t x /\ b = nHp n nh t x) /\
  (forall a b c,
     helium_balance ne (alphaHep r t + alphad r t) (alphaHepp r t)
       (coll * GammaeHe0 r t) (coll * GammaeHep r t)
       (photo (Rpower 10 (lg_gHe0 n))) (photo (Rpower 10 (lg_gHep n))) a b c <->
     Some a = nHe0 n nh t x /\ b = nHep n nh t x /\ c = nHepp n nh t x).
Proof. exact C38_equilibrium_aux. Qed.
Print Assumptions C38_equilibrium.

(** At a given temperature the implied electron abundance falls with the
    assumed one, so at most one abundance is self-consistent. *)
Theorem C38_decreasing : forall n nh t x x' helium,
  shipped (recomb n) -> 0 < photo_factor n -> 0 < nh -> 0 < t -> 0 <= helium < 1 ->
  1e-40 < x -> x < x' ->
  nebynh n nh t x' helium < nebynh n nh t x helium.
Proof. exact C38_decreasing_aux. Qed.
Print Assumptions C38_decreasing.

Theorem C38_unique : forall n nh t x x' helium,
  shipped (recomb n) -> 0 < photo_factor n -> 0 < nh -> 0 < t -> 0 <= helium < 1 ->
  1e-40 < x -> 1e-40 < x' ->
  nebynh n nh t x helium = x -> nebynh n nh t x' helium = x' -> x = x'.
Proof. exact C38_unique_aux. Qed.
Print Assumptions C38_unique.

(** The temperature is the one of an ideal monatomic gas with that internal
    energy per mass. *)
Theorem C38_temperature : forall x u helium, 0 <= x -> 0 < u -> 0 <= helium < 1 ->
  exists t, get_temp x u helium = Some t /\ 0 < t /\
    3 / 2 * 1.38066e-16 * t * particles_per_mass x helium = u * 1e10 * 1.67262178e-24.
Proof. exact C38_temperature_aux. Qed.
Print Assumptions C38_temperature.

(** The guard on the electron abundance is needed: at or below 1e-40 electrons
    per atom the photoionisation is dropped and the result is not in balance
    with any radiation field. *)
Theorem C38_cut_refuted : forall n nh t x,
  shipped (recomb n) -> 0 < photo_factor n -> 0 < nh -> 0 < t -> 0 < x <= 1e-40 ->
  forall shield, 0 < shield ->
  ~ hydrogen_balance (x * nh) (alphaHp (recomb n) t)
      ((if collisional n then 1 else 0) * GammaeH0 (recomb n) t)
      (Rpower 10 (lg_gH0 n) * photo_factor n * shield) (nH0 n nh t x) (nHp n nh t x).
Proof. exact C38_cut_refuted_aux. Qed.
Print Assumptions C38_cut_refuted.

(** The radiative recombination rate of He+ in the default table is zero at
    exactly the two temperatures where the fits are switched (and nowhere
    else): neither of the three comparisons holds there. *)
Theorem C38_switch_refuted : forall t, 0 < t ->
  (alphaHep verner96 t = 0 <-> t = 6e5 \/ t = 8e5).
Proof. exact verner_alphaHep_zero. Qed.
Print Assumptions C38_switch_refuted.

(** A network like the default one, at a redshift where the rates are
    1e-12, 1e-12 and 1e-15 per second. *)
Definition example_network : network :=
  Network verner96 (-12) (-12) (-15) 1 true true 2.27e-18 0.17 10.

Example C38_example : exists he0,
  nHe0 example_network 1e-4 1e4 1.1 = Some he0 /\
  he0 + nHep example_network 1e-4 1e4 1.1 + nHepp example_network 1e-4 1e4 1.1 = 1 /\
  nebynh example_network 1e-4 1e4 1.1 0.24 < nebynh example_network 1e-4 1e4 1 0.24.
Proof.
  assert (SH : shipped (recomb example_network)) by (right; left; reflexivity).
  assert (P : 0 < photo_factor example_network) by (cbn [photo_factor example_network]; lra).
  destruct (C38_fractions example_network 1e-4 1e4 1.1 0.24 SH (Rlt_le _ _ P)
    ltac:(lra) ltac:(lra) ltac:(lra) (or_introl eq_refl)) as (_ & _ & _ & (h & A & _ & _ & _ & B) & _).
  exists h. repeat split; auto. apply C38_decreasing; auto; lra.
Qed.

(** C40.  For every density and internal energy array the solver does not raise
    from inside the rate functions; if it returns, then for every element the
    electron density lies within the physical range and satisfies its defining
    equation to the tolerance.  Otherwise it raises because it did not
    converge or because the residual check failed. *)
Theorem C40_solution : forall n maxiter density u helium,
  shipped (recomb n) -> 0 <= photo_factor n -> 0 <= helium < 1 ->
  length density = length u ->
  Forall (fun d => 0 < d) density -> Forall (fun e => 0 < e) u ->
  get_equilib_ne n maxiter density u helium <> Raised /\
  (forall ne, get_equilib_ne n maxiter density u helium = Value ne ->
     length ne = length density /\
     forall i d e m, nth_error density i = Some d -> nth_error u i = Some e ->
       nth_error ne i = Some m ->
       let nh := d * (1 - helium) in
       0 <= m <= (1 + helium / (2 * (1 - helium))) * nh /\
       exists t, get_temp (m / nh) e helium = Some t /\ 0 < t /\
         Rabs (nebynh n nh t (m / nh) helium - m / nh) < converge n).
Proof. exact C40_solution_aux. Qed.
Print Assumptions C40_solution.

(** The neutral fraction is the one at that electron density and temperature
    and lies in (0,1]. *)
Theorem C40_neutral : forall n maxiter density u helium fs,
  shipped (recomb n) -> 0 <= photo_factor n -> 0 <= helium < 1 ->
  length density = length u ->
  Forall (fun d => 0 < d) density -> Forall (fun e => 0 < e) u ->
  get_neutral_fraction n maxiter density u helium = Value fs ->
  exists ne, get_equilib_ne n maxiter density u helium = Value ne /\
    length fs = length density /\
    forall i d e m f, nth_error density i = Some d -> nth_error u i = Some e ->
      nth_error ne i = Some m -> nth_error fs i = Some f ->
      let nh := d * (1 - helium) in
      exists t, get_temp (m / nh) e helium = Some t /\
        f = nH0 n nh t (m / nh) /\ 0 < f <= 1.
Proof. exact C40_neutral_aux. Qed.
Print Assumptions C40_neutral.

Example C40_example : exists ne,
  get_equilib_ne example_network 500 [1; 2] [100; 200] 0.24 = Value ne.
Proof.
  apply (example_equilib example_network 499).
  - right; left; reflexivity.
  - cbn [photo_factor example_network]; lra.
  - reflexivity.
Qed.

(** The electrons per hydrogen nucleus: at most all those of hydrogen and helium, and at the temperature which goes with this abundance
    the ionisation of the gas gives it back. *)
Theorem C40_per_hydrogen : forall n maxiter density u helium rs,
  shipped (recomb n) -> 0 <= photo_factor n -> 0 <= helium < 1 ->
  length density = length u ->
  Forall (fun d => 0 < d) density -> Forall (fun e => 0 < e) u ->
  get_ne_by_nh n maxiter density u helium = Value rs ->
  length rs = length density /\
  forall i d e y, nth_error density i = Some d -> nth_error u i = Some e -> nth_error rs i = Some y ->
    0 <= y <= 1 + helium / (2 * (1 - helium)) /\
    exists t, get_temp y e helium = Some t /\ 0 < t /\ Rabs (nebynh n (d * (1 - helium)) t y helium - y) < converge n.
Proof. exact C40_per_hydrogen_aux. Qed.
Print Assumptions C40_per_hydrogen.

Example C40_per_hydrogen_example : exists rs,
  get_ne_by_nh example_network 500 [1; 2] [100; 200] 0.24 = Value rs.
Proof. destruct C40_example as (ne & E). unfold get_ne_by_nh. rewrite E. eexists. reflexivity. Qed.

(** The solver itself, for any function: it stops after at most
    [maxiter + maxiter/2] evaluations ([maxiter] without acceleration), and what
    it returns is the image of a point that differs by less than half the
    tolerance. *)
Theorem C40_calls : forall func x0 xtol maxiter accel,
  (snd (fixed_point func x0 xtol maxiter accel) <= maxiter + maxiter / 2)%nat /\
  (accel = false -> (snd (fixed_point func x0 xtol maxiter accel) <= maxiter)%nat).
Proof. exact C40_calls_aux. Qed.
Print Assumptions C40_calls.

Theorem C40_fixed_point : forall func x0 xtol maxiter accel p calls,
  (forall q r, func q = Some r -> length r = length q) ->
  fixed_point func x0 xtol maxiter accel = (Value p, calls) ->
  exists q, func q = Some p /\ Forall2 (fun a b => Rabs (a - b) < xtol / 2) p q.
Proof. exact C40_fixed_point_aux. Qed.
Print Assumptions C40_fixed_point.

(** For functions affine in each element with a non-negative fixed point the
    accelerated solver finds it exactly after at most three evaluations,
    whatever the slope (plain iteration diverges for slopes above one). *)
Theorem C40_affine : forall cs x0 xtol maxiter,
  length cs = length x0 -> 0 < xtol -> (2 <= maxiter)%nat ->
  Forall (fun c => fst c <> 1 /\ 0 <= snd c / (1 - fst c)) cs ->
  exists p calls,
    fixed_point (fun xs => Some (affine cs xs)) x0 xtol maxiter true = (Value p, calls) /\
    (calls <= 3)%nat /\
    (p = map (fun c => snd c / (1 - fst c)) cs \/
     (p = affine cs x0 /\ Forall2 (fun a b => Rabs (a - b) < xtol / 2) p x0)).
Proof. exact C40_affine_aux. Qed.
Print Assumptions C40_affine.

Example C40_affine_example :
  Forall (fun c : R * R => fst c <> 1 /\ 0 <= snd c / (1 - fst c)) [(3, -4); (1 / 2, 1)].
Proof. repeat constructor; cbn [fst snd]; lra. Qed.

(** Without a fixed point it raises, whatever the number of iterations. *)
Theorem C40_raises : forall xtol maxiter accel x, 0 < xtol <= 1 ->
  fst (fixed_point (fun xs => Some (map (fun y => y + 1) xs)) [x] xtol maxiter accel)
  = NotConverged.
Proof. exact C40_raises_aux. Qed.
Print Assumptions C40_raises.
