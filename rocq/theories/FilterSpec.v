(** Vocabulary for the statements about masking saturated absorption. *)
From Coq Require Import ZArith List Reals.
Import ListNotations.
Local Open Scope R_scope.

(** Pixel z of a periodic spectrum. *)
Definition pixel (l : list R) (z : Z) : R := nth (Z.to_nat (z mod Z.of_nat (length l))) l 0.

(** Pixel z belongs to the same stretch of pixels above [low] as a pixel above [high]. *)
Definition near_saturated (high low : R) (l : list R) (z : Z) : Prop :=
  exists d : Z, high < pixel l (z + d) /\
    forall e : Z, (0 <= e <= d \/ d <= e <= 0)%Z -> low < pixel l (z + e).

(** The result of masking: the stretches around saturated pixels get the value v, and nothing else changes. *)
Definition masked (high low v : R) (l out : list R) : Prop :=
  length out = length l /\
  forall z, (near_saturated high low l z -> pixel out z = v) /\
            (~ near_saturated high low l z -> pixel out z = pixel l z).
