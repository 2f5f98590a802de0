(** Theorems about the response of the ionisation equilibrium (C102, C103). *)
From Coq Require Import Reals Lra Lia Bool List.
From Verif Require Import RatesModel RatesSpec RatesProofs IoniseSpec IoniseProofs2 IoniseProofs4 IoniseProofs5 RatesProps.
Import ListNotations.
Local Open Scope R_scope.

(** ** C102: gas of given temperature *)

(** For every table, temperature, density and radiation there is exactly one balanced state with electrons. *)
Theorem C102_exists : forall n nh helium t s,
  shipped (recomb n) -> 0 < photo_factor n -> 0 < s -> 0 < nh -> 0 <= helium < 1 -> 0 < t ->
  exists x a, 0 < x < 1 + helium / (2 * (1 - helium)) /\ 0 < a < 1 /\ balanced n s nh helium t x a /\
    forall x' a', 0 < x' -> balanced n s nh helium t x' a' -> x' = x /\ a' = a.
Proof. exact C102_exists_aux. Qed.
Print Assumptions C102_exists.

(** Denser gas has fewer electrons per atom and a larger neutral fraction, with self-shielding and without. *)
Theorem C102_denser : forall n nh nh' helium t x x' a a',
  shipped (recomb n) -> 0 < photo_factor n -> 0 <= helium < 1 -> 0 < t -> 0 < nh < nh' -> 0 < x -> 0 < x' ->
  balanced n (self_shield_corr n nh t) nh helium t x a ->
  balanced n (self_shield_corr n nh' t) nh' helium t x' a' ->
  x' < x /\ a < a'.
Proof. exact C102_denser_aux. Qed.
Print Assumptions C102_denser.

(** More light, by the factor of the network or by less shielding: more electrons and less neutral hydrogen. *)
Theorem C102_brighter : forall n f f' s s' nh helium t x x' a a',
  shipped (recomb n) -> 0 <= helium < 1 -> 0 < t -> 0 < nh -> 0 < x -> 0 < x' -> 0 < f * s < f' * s' ->
  balanced (lit n f) s nh helium t x a -> balanced (lit n f') s' nh helium t x' a' ->
  x < x' /\ a' < a.
Proof. exact C102_brighter_aux. Qed.
Print Assumptions C102_brighter.

(** Hotter gas with the same electrons has a smaller neutral fraction. *)
Theorem C102_hotter : forall n nh x t t' a b a' b',
  within (recomb n) t' -> 0 < photo_factor n -> 0 < nh -> 0 < x -> 0 < t < t' ->
  let coll := if collisional n then 1 else 0 in
  let photo t := Rpower 10 (lg_gH0 n) * photo_factor n * self_shield_corr n nh t in
  hydrogen_balance (x * nh) (alphaHp (recomb n) t) (coll * GammaeH0 (recomb n) t) (photo t) a b ->
  hydrogen_balance (x * nh) (alphaHp (recomb n) t') (coll * GammaeH0 (recomb n) t') (photo t') a' b' ->
  a' < a.
Proof. exact C102_hotter_aux. Qed.
Print Assumptions C102_hotter.

(** The default network at 10000 K, at two densities ten thousand times apart. *)
Example C102_example : exists x a x' a',
  balanced example_network (self_shield_corr example_network 1e-5 1e4) 1e-5 0.24 1e4 x a /\
  balanced example_network (self_shield_corr example_network 1e-1 1e4) 1e-1 0.24 1e4 x' a' /\
  0 < x' < x /\ 0 < a < a'.
Proof.
  assert (SH : shipped (recomb example_network)) by (unfold shipped; cbn; auto).
  assert (P : 0 < photo_factor example_network) by (cbn; lra).
  pose proof (self_shield_corr_range example_network 1e-5 1e4 ltac:(lra)) as S1.
  pose proof (self_shield_corr_range example_network 1e-1 1e4 ltac:(lra)) as S2.
  destruct (C102_exists example_network 1e-5 0.24 1e4 _ SH P (proj1 S1) ltac:(lra) ltac:(lra) ltac:(lra)) as (x & a & X & A & B & _).
  destruct (C102_exists example_network 1e-1 0.24 1e4 _ SH P (proj1 S2) ltac:(lra) ltac:(lra) ltac:(lra)) as (x' & a' & X' & A' & B' & _).
  exists x, a, x', a'.
  destruct (C102_denser example_network 1e-5 1e-1 0.24 1e4 x x' a a' SH P ltac:(lra) ltac:(lra) ltac:(lra) (proj1 X) (proj1 X') B B').
  repeat split; auto; lra.
Qed.

(** ** C103: gas of given internal energy, the problem get_equilib_ne solves *)

(** There is a balanced state at the temperature that goes with it. *)
Theorem C103_exists : forall n nh helium u tm, 0 < photo_factor n -> 0 < nh -> 0 <= helium < 1 -> 0 < u ->
  thermal u helium 0 tm -> within (recomb n) tm ->
  exists x t a, 0 < x < 1 + helium / (2 * (1 - helium)) /\ 0 < a < 1 /\ thermal u helium x t /\
    balanced n (self_shield_corr n nh t) nh helium t x a.
Proof. exact C103_exists_aux. Qed.
Print Assumptions C103_exists.

(** Only one. *)
Theorem C103_unique : forall n nh helium u tm x t a x' t' a',
  0 < photo_factor n -> 0 < nh -> 0 <= helium < 4 / 7 -> 0 < u -> thermal u helium 0 tm -> within (recomb n) tm ->
  0 < x -> thermal u helium x t -> balanced n (self_shield_corr n nh t) nh helium t x a ->
  0 < x' -> thermal u helium x' t' -> balanced n (self_shield_corr n nh t') nh helium t' x' a' ->
  x = x' /\ t = t' /\ a = a'.
Proof. exact C103_unique_aux. Qed.
Print Assumptions C103_unique.

(** Denser gas of the same energy has fewer electrons per atom and is hotter. *)
Theorem C103_denser : forall n nh nh' helium u tm x t a x' t' a',
  0 < photo_factor n -> 0 < nh < nh' -> 0 <= helium < 4 / 7 -> 0 < u -> thermal u helium 0 tm -> within (recomb n) tm ->
  0 < x -> thermal u helium x t -> balanced n (self_shield_corr n nh t) nh helium t x a ->
  0 < x' -> thermal u helium x' t' -> balanced n (self_shield_corr n nh' t') nh' helium t' x' a' ->
  x' < x /\ t < t'.
Proof. exact C103_denser_aux. Qed.
Print Assumptions C103_denser.

(** Gas of more energy is hotter. *)
Theorem C103_energy : forall n nh helium u u' tm x t a x' t' a',
  0 < photo_factor n -> 0 < nh -> 0 <= helium < 4 / 7 -> 0 < u < u' -> thermal u helium 0 tm -> within (recomb n) tm ->
  0 < x -> thermal u helium x t -> balanced n (self_shield_corr n nh t) nh helium t x a ->
  0 < x' -> thermal u' helium x' t' -> balanced n (self_shield_corr n nh t') nh helium t' x' a' ->
  t < t'.
Proof. exact C103_energy_aux. Qed.
Print Assumptions C103_energy.

(** What the solver returns is within a fixed multiple of its tolerance of that one state (1.31 times the tolerance for the
    default helium fraction 0.24), as long as it returns more than 1e-40 electrons per atom. *)
Theorem C103_solver : forall n maxiter density u helium ne,
  shipped (recomb n) -> 0 < photo_factor n -> 0 <= helium < 4 / 7 ->
  length density = length u -> Forall (fun d => 0 < d) density -> Forall (fun e => 0 < e) u ->
  get_equilib_ne n maxiter density u helium = Value ne ->
  length ne = length density /\
  forall i d e m tm x t a,
    nth_error density i = Some d -> nth_error u i = Some e -> nth_error ne i = Some m ->
    let nh := d * (1 - helium) in
    thermal e helium 0 tm -> within (recomb n) tm ->
    1e-40 < m / nh -> 0 < x -> thermal e helium x t -> balanced n (self_shield_corr n nh t) nh helium t x a ->
    Rabs (m / nh - x) * (4 - 7 * helium) < 4 * (1 - helium) * converge n.
Proof. exact C103_solver_aux. Qed.
Print Assumptions C103_solver.

(** The default network: gas of energy 1000 (km/s)^2, at most about 100000 K. *)
Example C103_example : exists tm x t a,
  thermal 1000 0.24 0 tm /\ within (recomb example_network) tm /\
  0 < x < 1 + 0.24 / (2 * (1 - 0.24)) /\ thermal 1000 0.24 x t /\
  balanced example_network (self_shield_corr example_network 1e-5 t) 1e-5 0.24 t x a.
Proof.
  pose proof (temp_thermal 1000 0.24 0 ltac:(lra) ltac:(lra)) as TH. set (tm := temp 1000 0.24 0) in *.
  assert (W : within (recomb example_network) tm).
  { right; right. split. reflexivity. unfold thermal, particles_per_mass in TH. lra. }
  destruct (C103_exists example_network 1e-5 0.24 1000 tm) as (x & t & a & X & A & T & B); auto; try lra.
  cbn; lra. exists tm, x, t, a. repeat split; auto; lra.
Qed.
