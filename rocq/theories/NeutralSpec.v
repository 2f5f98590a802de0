(** Specification vocabulary: ionisation balance of pure hydrogen gas. *)
From Coq Require Import Reals List.
Import ListNotations.
Local Open Scope R_scope.

(** Gas of hydrogen density [nH] and neutral fraction [x], electrons coming
    from hydrogen only: recombinations per volume equal photoionisations plus
    collisional ionisations per volume. *)
Definition in_balance (alpha lambda photo nH x : R) : Prop :=
  alpha * ((1 - x) * nH) * ((1 - x) * nH)
  = photo * (x * nH) + lambda * (x * nH) * ((1 - x) * nH).

(** The background of Faucher-Giguere et al. 2009 at redshifts 0 to 8: gray
    absorption cross section in units of 1e-20 cm^2, photoionisation rate in
    units of 1e-16 per second. *)
Definition published_opacity (k : nat) : R :=
  nth k [259; 237; 227; 215; 202; 194; 182; 171; 160] 0.
Definition published_gamma (k : nat) : R :=
  nth k [399; 3030; 6000; 5530; 4310; 3520; 2678; 1810; 943] 0.

(** The point a fraction [w] of the way from [y0] to [y1]. *)
Definition part_way (y0 y1 w : R) : R := (1 - w) * y0 + w * y1.
