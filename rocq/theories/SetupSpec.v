(** Vocabulary of the property of the pixel grid: the physics of a box in velocity units, independent of the code. *)
From Coq Require Import Reals ZArith.
Local Open Scope R_scope.

(** A flat universe expands at H = 100 h sqrt(Omega_m / a^3 + Omega_L) km/s/Mpc. *)
Definition friedmann (h m l a H : R) : Prop := 0 <= H /\ H * H = (100 * h) * (100 * h) * (m / (a * a * a) + l).

(** The velocity across a comoving length of [b] units of [u] cm /h. *)
Definition hubble_flow (b u a h H v : R) : Prop :=
  exists mpc, mpc * 3.085678e24 = b * u * (a / h) /\ v = H * mpc.

(** A grid of [n] pixels of width [d] covers the velocity [v]. *)
Definition tiles (n : Z) (d v : R) : Prop := (1 <= n)%Z /\ IZR n * d = v.

(** [n] is the largest number of pixels not narrower than [r]. *)
Definition finest (n : Z) (r v : R) : Prop := IZR n * r <= v /\ forall k : Z, IZR k * r <= v -> (k <= n)%Z.
