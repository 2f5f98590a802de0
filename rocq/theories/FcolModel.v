(** Model of LineAbsorption::add_colden_particle of fake_spectra/absorption.cpp with the top hat kernel in floating point: the density,
    position and smoothing length of the particle are single precision numbers, all else are double precision numbers, and every operation
    rounds its result to nearest even in the precision C++ gives it.

    Simplification: numbers have no largest exponent, so the model is that of the code while nothing exceeds 2^127; what is not finite is
    not modelled.  Fused multiplication and addition, and registers with more bits, are not modelled.  The other kernels are not modelled
    in floating point. *)
From Coq Require Import ZArith List Bool Reals.
From Flocq Require Import Core.Raux.
From Verif Require Import FloatModel FsearchModel.
Import ListNotations.
Local Open Scope R_scope.

(** Conversion of a double to [int]: [None] where C++ leaves it undefined. *)
Definition to_int (x : R) : option Z :=
  let z := Ztrunc x in if (- 2 ^ 31 <=? z)%Z && (z <? 2 ^ 31)%Z then Some z else None.

(** absorption.cpp:109-115, tophat_kern_frac. *)
Definition tophat_frac (zlow zhigh zrange : R) : R :=
  let zlow' := Rmax zlow (- zrange) in
  let zhigh' := Rmin zhigh zrange in
  s64 (s64 (s64 (3 / 4) / s64 PI) * Rmax 0 (s64 (zhigh' - zlow'))).

(** absorption.cpp:188 and the [vbox] of absorption.cpp:157: the length of a pixel. *)
Definition boxtokpc (boxsize velfac : R) (nbins : Z) : R := s64 (s64 (s64 (boxsize * velfac) / IZR nbins) / velfac).

(** absorption.cpp:199-201: the index of pixel [z]; the remainder of C++ has the sign of [z]. *)
Definition wrap (z nbins : Z) : Z := let j := Z.rem z nbins in if (j <? 0)%Z then (j + nbins)%Z else j.

(** absorption.cpp:208: [None] if the index is outside of the array. *)
Fixpoint add_nth (n : nat) (v : R) (a : list R) : option (list R) :=
  match n, a with
  | _, [] => None
  | O, x :: a' => Some (s64 (x + v) :: a')
  | S n', x :: a' => match add_nth n' v a' with Some b => Some (x :: b) | None => None end
  end.
(** absorption.cpp:208, with the definition above. *)
Definition add_at (j : Z) (v : R) (a : list R) : option (list R) :=
  if (j <? 0)%Z then None else add_nth (Z.to_nat j) v a.

(** absorption.cpp:196 and 208: what is added for pixel [z]. *)
Definition contribution (dx pos1 zrange dens : R) (z : Z) : R :=
  let plow := s64 (s64 (dx * IZR z) - pos1) in
  s64 (dens * tophat_frac plow (s64 (plow + dx)) zrange).

(** absorption.cpp:193-209: [left] turns of the loop, from [z] on. *)
Fixpoint colden_loop (nbins : Z) (dx pos1 zrange dens : R) (left : nat) (z : Z) (a : list R) : option (list R) :=
  match left with
  | O => Some a
  | S left' =>
      match add_at (wrap z nbins) (contribution dx pos1 zrange dens z) a with
      | Some b => colden_loop nbins dx pos1 zrange dens left' (z + 1) b
      | None => None
      end
  end.

(** absorption.cpp:167-210 with the top hat kernel; [smooth*smooth] is a float.  [None] is undefined behaviour: a pixel number that
    does not fit an [int], the increment of the largest one, or an index outside of the array. *)
Definition add_colden_particle (boxsize velfac : R) (nbins : Z) (dr2 dens pos smooth : R) (a : list R) : option (list R) :=
  let d := s64 (s32 (smooth * smooth) - dr2) in
  if leb d 0 then Some a
  else
    let zrange := s64 (sqrt d) in
    let dx := boxtokpc boxsize velfac nbins in
    match to_int (IZR (Zfloor (s64 (s64 (pos - zrange) / dx)))), to_int (IZR (Zceil (s64 (s64 (pos + zrange) / dx)))) with
    | Some zlow, Some zhigh =>
        if (zhigh =? 2 ^ 31 - 1)%Z then None
        else colden_loop nbins dx pos zrange dens (Z.to_nat (zhigh - zlow + 1)) zlow a
    | _, _ => None
    end.
