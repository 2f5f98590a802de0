(** Specification vocabulary for the Voigt profile: Laplace's continued fraction, the Lorentz profile and the scaled
    complementary error function. None of it refers to the model. *)
From Coq Require Import Reals ZArith Lra.
From Coquelicot Require Import Coquelicot.
From Coq Require Import List.
From Flocq Require Import Core.Raux.
Import ListNotations.
Local Open Scope R_scope.

(** The code's value of 1/sqrt(pi). *)
Definition isp : R := 0.56418958354775628694807945156.

(** z - (k/2)/(z - ((k+1)/2)/(z - ... /z)) with n divisions. *)
Fixpoint fraction (n k : nat) (z : C) : C :=
  match n with
  | O => z
  | S m => Cminus z (Cdiv (RtoC (INR k / 2)) (fraction m (S k) z))
  end.

(** Laplace's continued fraction for w(z) with n terms: (i/sqrt(pi)) / (z - (1/2)/(z - 1/(z - (3/2)/...))). *)
Definition laplace (n : nat) (z : C) : C := Cdiv (Cmult Ci (RtoC isp)) (fraction (n - 1) 1 z).

(** How many terms are used at the distance x from the centre with damping y. *)
Definition terms (x y : R) (n : nat) : Prop :=
  (10000000 < x + y /\ n = 1%nat) \/
  (4000 < x + y <= 10000000 /\ n = 2%nat) \/
  (x + y <= 4000 /\
   INR n <= 3.9 + 11.398 / (0.08254 * x + 0.1421 * y + 0.2023) < INR n + 1).

(** Far from the centre, or with strong damping. *)
Definition outer (x y : R) : Prop :=
  7 < y \/ 28 < x \/ (8 < x /\ 0.0000000001 < y) \/ (6 < x /\ 0.1 < y).

(** The profile of a damped line without thermal motions. *)
Definition lorentz (x y : R) : R := isp * y / (x * x + y * y).

(** g is the scaled complementary error function exp(x^2) erfc(x):
    (2/sqrt pi) exp(x^2) times the integral of exp(-t^2) from x to infinity. *)
Definition is_erfcx (g : R -> R) : Prop := forall x,
  is_lim (fun b => 2 / sqrt PI * exp (x * x) * RInt (fun t => exp (- (t * t))) x b) p_infty (g x).
