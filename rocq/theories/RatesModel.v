(** Model of fake_spectra/rate_network.py: the recombination and collisional
    rate tables, the ionisation fractions of the rate network, the
    temperature-energy relation and the accelerated fixed point solver.

    Real arithmetic is exact (no rounding, overflow or underflow).  [Rpower]
    agrees with python's power for positive bases only: temperatures,
    densities, the opacity and the baryon fraction are meant to be positive.
    Arrays are
    lists; the arguments of one call have the same shape, so that numpy
    broadcasting plays no role. *)
From Coq Require Import Reals List Bool Arith Lia Lra.
Import ListNotations.
Local Open Scope R_scope.

(** ** Rate tables (temperatures in K, positive) *)

(** rate_network.py:294-432: the interface shared by the three tables, as
    functions of temperature. *)
Record rates := Rates {
  alphaHp : R -> R;
  alphaHep : R -> R;
  alphad : R -> R;
  alphaHepp : R -> R;
  GammaeH0 : R -> R;
  GammaeHe0 : R -> R;
  GammaeHep : R -> R
}.

(** rate_network.py:298-301 *)
Definition cen_alphaHp (t : R) : R :=
  8.4e-11 / sqrt t / Rpower (t / 1000) 0.2 / (1 + Rpower (t / 1e6) 0.7).
(** rate_network.py:303-306 *)
Definition cen_alphaHep (t : R) : R := 1.5e-10 / Rpower t 0.6353.
(** rate_network.py:308-311 *)
Definition cen_alphad (t : R) : R :=
  1.9e-3 / Rpower t 1.5 * exp (- 4.7e5 / t) * (1 + 0.3 * exp (- 9.4e4 / t)).
(** rate_network.py:318-328: the three collisional rates have this form *)
Definition cen_collisional (c b t : R) : R :=
  c * sqrt t * exp (- b / t) / (1 + sqrt (t / 1e5)).

(** rate_network.py:294-328 RecombRatesCen92 *)
Definition cen92 : rates := {|
  alphaHp := cen_alphaHp;
  alphaHep := cen_alphaHep;
  alphad := cen_alphad;
  alphaHepp := fun t => 4 * cen_alphaHp t;
  GammaeH0 := cen_collisional 5.85e-11 157809.1;
  GammaeHe0 := cen_collisional 2.38e-11 285335.4;
  GammaeHep := cen_collisional 5.68e-12 631515.0
|}.

(** rate_network.py:338-342 _Verner96Fit *)
Definition verner_fit (t aa bb t0 t1 : R) : R :=
  aa / (sqrt (t / t0) * Rpower (1 + sqrt (t / t0)) (1 - bb)
                      * Rpower (1 + sqrt (t / t1)) (1 + bb)).

(** A numpy boolean used as a factor. *)
Definition b2r (b : bool) : R := if b then 1 else 0.
(** The comparison [a < b] as python evaluates it. *)
Definition ltb (a b : R) : bool := if Rlt_dec a b then true else false.

(** rate_network.py:351-368 RecombRatesVerner96.alphaHep: the three branches
    are selected by multiplying with comparisons. *)
Definition verner_alphaHep (t : R) : R :=
  let low := verner_fit t 3.294e-11 0.6910 1.554e+01 3.676e+07 in
  let high := verner_fit t 9.356e-10 0.7892 4.266e-02 4.677e+06 in
  let swtmp := 7e5 in
  let deltat := 1e5 in
  let upper := swtmp + deltat in
  let lower := swtmp - deltat in
  let mid := (low * (upper - t) + high * (t - lower)) / (2 * deltat) in
  b2r (ltb t lower) * low + b2r (ltb upper t) * high
  + b2r (ltb t upper) * b2r (ltb lower t) * mid.

(** rate_network.py:370-376 *)
Definition verner_alphad (t : R) : R :=
  1.23e-3 / Rpower t 1.5 * exp (- 4.72e5 / t) * (1 + 0.3 * exp (- 9.4e4 / t)).

(** rate_network.py:384-389 _Voronov96Fit *)
Definition voronov_fit (t dE PP AA XX KK : R) : R :=
  let uu := dE / (8.61734e-5 * t) in
  AA * (1 + PP * sqrt uu) / (XX + uu) * Rpower uu KK * exp (- uu).

(** rate_network.py:330-401 RecombRatesVerner96 *)
Definition verner96 : rates := {|
  alphaHp := fun t => verner_fit t 7.982e-11 0.748 3.148 7.036e+05;
  alphaHep := verner_alphaHep;
  alphad := verner_alphad;
  alphaHepp := fun t => verner_fit t 1.891e-10 0.7524 9.370 2.774e6;
  GammaeH0 := fun t => voronov_fit t 13.6 0 0.291e-07 0.232 0.39;
  GammaeHe0 := fun t => voronov_fit t 24.6 0 0.175e-07 0.180 0.35;
  GammaeHep := fun t => voronov_fit t 54.4 1 0.205e-08 0.265 0.25
|}.

(** rate_network.py:408-413 _RecombRateFit_lowcharge_ion *)
Definition lowcharge_fit (t aa bb cc t0 t1 t2 : R) : R :=
  verner_fit t aa (bb + cc * exp (- t2 / t)) t0 t1.

(** rate_network.py:403-432 RecombRatesBadnell (inherits the rest) *)
Definition badnell : rates := {|
  alphaHp := fun t => verner_fit t 8.318e-11 0.7472 2.965 7.001e5;
  alphaHep := fun t => verner_fit t 1.818e-10 0.7492 10.17 2.786e6;
  alphad := verner_alphad;
  alphaHepp := fun t => lowcharge_fit t 5.235e-11 0.6988 0.0829 7.301 4.475e6 1.682e5;
  GammaeH0 := GammaeH0 verner96;
  GammaeHe0 := GammaeHe0 verner96;
  GammaeHep := GammaeHep verner96
|}.

(** ** The network *)

(** rate_network.py:47-81 RateNetwork.__init__: what the fractions depend on.
    The photoionisation rates of the TREECOOL table at the network's redshift
    are [10**x] for an interpolated [x] (rate_network.py:434-471): the fields
    hold the interpolated logarithms.  [gray] is Gray_ss(redshift). *)
Record network := Network {
  recomb : rates;
  lg_gH0 : R;
  lg_gHe0 : R;
  lg_gHep : R;
  photo_factor : R;
  collisional : bool;
  selfshield : bool;
  gray : R;
  f_bar : R;
  converge : R
}.

(** rate_network.py:458-471 PhotoRates.gH0, gHe0, gHep *)
Definition gH0 (n : network) : R := Rpower 10 (lg_gH0 n).
(** rate_network.py:458-471 gHe0 *)
Definition gHe0 (n : network) : R := Rpower 10 (lg_gHe0 n).
(** rate_network.py:458-471 gHep *)
Definition gHep (n : network) : R := Rpower 10 (lg_gHep n).

(** rate_network.py:230-239 _self_shield_dens *)
Definition self_shield_dens (n : network) (t : R) : R :=
  6.73e-3 * Rpower (gray n / 2.49e-18) (-2 / 3) * Rpower (t / 1e4) 0.17
  * Rpower (gH0 n / 1e-12) (2 / 3) * Rpower (f_bar n / 0.17) (-1 / 3).

(** rate_network.py:219-228 _self_shield_corr *)
Definition self_shield_corr (n : network) (nh t : R) : R :=
  if selfshield n then
    let nssh := 1.003 * self_shield_dens n t in
    0.98 * Rpower (1 + Rpower (nh / nssh) 1.64) (-2.28)
    + 0.02 * Rpower (1 + nh / nssh) (-0.84)
  else 1.

(** rate_network.py:163-178 _photofac (the array branch does the same for
    each element) *)
Definition photofac (n : network) (x nh t : R) : R :=
  if Rlt_dec 1e-40 x
  then photo_factor n * self_shield_corr n nh t / (x * nh)
  else 0.

(** rate_network.py:180-185 _nH0 *)
Definition nH0 (n : network) (nh t x : R) : R :=
  alphaHp (recomb n) t
  / (alphaHp (recomb n) t + b2r (collisional n) * GammaeH0 (recomb n) t
     + gH0 n * photofac n x nh t).

(** rate_network.py:187-189 _nHp *)
Definition nHp (n : network) (nh t x : R) : R := 1 - nH0 n nh t x.

(** rate_network.py:193,202 the recombination rate of He+ *)
Definition recHep (n : network) (t : R) : R :=
  alphaHep (recomb n) t + alphad (recomb n) t.

(** rate_network.py:196-197,204,210 the ionisation rates of He0 and He+ per
    electron *)
Definition ionHe0 (n : network) (nh t x : R) : R :=
  b2r (collisional n) * GammaeHe0 (recomb n) t + gHe0 n * photofac n x nh t.
(** rate_network.py:196-197,204,210, with the definition above. *)
Definition ionHep (n : network) (nh t x : R) : R :=
  b2r (collisional n) * GammaeHep (recomb n) t + gHep n * photofac n x nh t.

(** rate_network.py:191-198 _nHep.  When the ionisation rate of He0 is zero
    numpy divides by zero: [alphaHep / 0] is infinite and the result is 0. *)
Definition nHep (n : network) (nh t x : R) : R :=
  if Req_EM_T (ionHe0 n nh t x) 0 then 0
  else 1 / (1 + recHep n t / ionHe0 n nh t x
              + ionHep n nh t x / alphaHepp (recomb n) t).

(** rate_network.py:200-205 _nHe0; [None] is NaN, the value of
    [0 * alphaHep / 0]. *)
Definition nHe0 (n : network) (nh t x : R) : option R :=
  if Req_EM_T (ionHe0 n nh t x) 0 then None
  else Some (nHep n nh t x * recHep n t / ionHe0 n nh t x).

(** rate_network.py:207-212 _nHepp *)
Definition nHepp (n : network) (nh t x : R) : R :=
  nHep n nh t x * ionHep n nh t x / alphaHepp (recomb n) t.

(** rate_network.py:216, 104: the helium number per hydrogen atom *)
Definition yy (helium : R) : R := helium / 4 / (1 - helium).

(** rate_network.py:214-217 _nebynh *)
Definition nebynh (n : network) (nh t x helium : R) : R :=
  nHp n nh t x + yy helium * nHep n nh t x + 2 * yy helium * nHepp n nh t x.

(** rate_network.py:256-292 _get_temp; [None] is the failed assertion. *)
Definition get_temp (x ienergy helium : R) : option R :=
  let hy_mass := 1 - helium in
  let meanweight := 4 / (1 + (3 + 4 * x) * hy_mass) in
  let muienergy := meanweight * ienergy * 1e10 in
  let temp := (5 / 3 - 1) * 1.67262178e-24 / 1.38066e-16 * muienergy in
  if Rle_dec 0 temp then Some temp else None.

(** ** The solver *)

(** The outcome of a call: a value, an exception raised by the function that
    is iterated, the RuntimeError of the solver, or the failed assertion of
    get_equilib_ne. *)
Inductive outcome (A : Type) :=
| Value (a : A)
| Raised
| NotConverged
| BadResidual.
Arguments Value {A} a.
Arguments Raised {A}.
Arguments NotConverged {A}.
Arguments BadResidual {A}.

(** numpy: elementwise [np.all(np.abs(p - q) < tol)] *)
Definition all_close (tol : R) (p q : list R) : bool :=
  forallb (fun ab => ltb (Rabs (fst ab - snd ab)) tol) (combine p q).

(** rate_network.py:670-673 _del2 *)
Definition del2 (p0 p1 d : R) : R := Rmax (p0 - (p1 - p0) * (p1 - p0) / d) 0.

(** rate_network.py:683-687 one element of the accelerated step *)
Definition accelerate (p0 p1 p2 : R) : R :=
  let d := p2 - 2 * p1 + p0 in
  if Req_EM_T d 0 then p2 else del2 p0 p1 d.

(** Elementwise application to three arrays of the same shape. *)
Fixpoint zip3 (f : R -> R -> R -> R) (a b c : list R) : list R :=
  match a, b, c with
  | x :: a', y :: b', z :: c' => f x y z :: zip3 f a' b' c'
  | _, _, _ => []
  end.

(** rate_network.py:675-693 _fixed_point_helper: [left] iterations remain, [i]
    is the loop variable.  The second component counts the evaluations of the
    function. *)
Fixpoint helper (func : list R -> option (list R)) (xtol : R) (maxiter : nat)
  (accel : bool) (left i : nat) (p0 : list R) : outcome (list R) * nat :=
  match left with
  | O => (NotConverged, O)
  | S left' =>
      match func p0 with
      | None => (Raised, 1%nat)
      | Some p1 =>
          if all_close (xtol / 2) p1 p0 then (Value p1, 1%nat)
          else if accel && Nat.ltb i (Nat.div maxiter 2) then
            match func p1 with
            | None => (Raised, 2%nat)
            | Some p2 =>
                let r := helper func xtol maxiter accel left' (S i)
                           (zip3 accelerate p0 p1 p2) in
                (fst r, (2 + snd r)%nat)
            end
          else
            let r := helper func xtol maxiter accel left' (S i) p1 in
            (fst r, (1 + snd r)%nat)
      end
  end.

(** rate_network.py:695-740 fixed_point *)
Definition fixed_point (func : list R -> option (list R)) (x0 : list R)
  (xtol : R) (maxiter : nat) (accel : bool) : outcome (list R) * nat :=
  helper func xtol maxiter accel maxiter 0 x0.

(** rate_network.py:141-142 rooted, for one gas element *)
Definition rooted1 (n : network) (helium nh ienergy x : R) : option R :=
  match get_temp x ienergy helium with
  | Some t => Some (nebynh n nh t x helium)
  | None => None
  end.

(** rate_network.py:141-142 rooted, on arrays *)
Fixpoint rooted (n : network) (helium : R) (nh ienergy xs : list R)
  : option (list R) :=
  match nh, ienergy, xs with
  | h :: nh', u :: ienergy', x :: xs' =>
      match rooted1 n helium h u x, rooted n helium nh' ienergy' xs' with
      | Some y, Some ys => Some (y :: ys)
      | _, _ => None
      end
  | _, _, _ => Some []
  end.

(** An elementwise operation of two arrays. *)
Fixpoint zip2 (f : R -> R -> R) (a b : list R) : list R :=
  match a, b with
  | x :: a', y :: b' => f x y :: zip2 f a' b'
  | _, _ => []
  end.

(** rate_network.py:132-145 get_equilib_ne.  The method is the default del2;
    [maxiter], the default 500 of fixed_point in the code, is left as a
    parameter. *)
Definition get_equilib_ne (n : network) (maxiter : nat) (density ienergy : list R)
  (helium : R) : outcome (list R) :=
  let nh := map (fun d => d * (1 - helium)) density in
  match fst (fixed_point (rooted n helium nh ienergy) nh (converge n) maxiter true) with
  | Value p =>
      match rooted n helium nh ienergy p with
      | None => Raised
      | Some q => if all_close (converge n) q p then Value (zip2 Rmult p nh)
                  else BadResidual
      end
  | Raised => Raised
  | NotConverged => NotConverged
  | BadResidual => BadResidual
  end.

(** rate_network.py:147-149 get_ne_by_nh *)
Definition get_ne_by_nh (n : network) (maxiter : nat) (density ienergy : list R)
  (helium : R) : outcome (list R) :=
  match get_equilib_ne n maxiter density ienergy helium with
  | Value ne => Value (zip2 Rdiv ne (map (fun d => d * (1 - helium)) density))
  | e => e
  end.

(** rate_network.py:158-160 for one element: the neutral fraction at the
    temperature that goes with the electron abundance *)
Definition neutral1 (n : network) (helium nh ienergy ne : R) : option R :=
  match get_temp (ne / nh) ienergy helium with
  | Some t => Some (nH0 n nh t (ne / nh))
  | None => None
  end.

(** rate_network.py:158-160, on arrays *)
Fixpoint neutrals (n : network) (helium : R) (nh ienergy ne : list R)
  : option (list R) :=
  match nh, ienergy, ne with
  | h :: nh', u :: ienergy', e :: ne' =>
      match neutral1 n helium h u e, neutrals n helium nh' ienergy' ne' with
      | Some y, Some ys => Some (y :: ys)
      | _, _ => None
      end
  | _, _, _ => Some []
  end.

(** rate_network.py:151-160 get_neutral_fraction *)
Definition get_neutral_fraction (n : network) (maxiter : nat) (density ienergy : list R)
  (helium : R) : outcome (list R) :=
  match get_equilib_ne n maxiter density ienergy helium with
  | Value ne =>
      match neutrals n helium (map (fun d => d * (1 - helium)) density) ienergy ne with
      | Some fs => Value fs
      | None => Raised
      end
  | e => e
  end.
