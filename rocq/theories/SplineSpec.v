(** Vocabulary for the breakpoints of the spline fit. *)
From Coq Require Import ZArith List Reals Sorted.
Import ListNotations.
Local Open Scope R_scope.

(** Pixels strictly between the first and the last of n, in increasing order. *)
Definition breaks (n : Z) (br : list Z) : Prop :=
  StronglySorted Z.lt br /\ Forall (fun x => (0 < x < n - 1)%Z) br.

(** [a] and [b] are neighbours in the list. *)
Definition neighbours (l : list Z) (a b : Z) : Prop := exists l1 l2, l = l1 ++ a :: b :: l2.

(** The breakpoints with a further one in the middle of every segment, the end being one past the last pixel. *)
Definition halved (n : Z) (br next : list Z) : Prop :=
  StronglySorted Z.lt next /\
  forall x, In x next <-> In x br \/ exists a b, neighbours (0%Z :: br ++ [n]) a b /\ x = ((a + b) / 2)%Z.

(** The nearest integer. *)
Definition nearest (x : R) (k : Z) : Prop := Rabs (x - IZR k) <= 1 / 2.

(** The sum of squares of the residuals over pixels a..b, in units of the variance of the flux there. *)
Definition sum_over (a b : Z) (f : Z -> R) : R :=
  fold_right Rplus 0 (map (fun i => f (a + Z.of_nat i)%Z) (seq 0 (Z.to_nat (b - a + 1)))).
Definition average (a b : Z) (f : Z -> R) : R := sum_over a b f / IZR (b - a + 1).
Definition variance (a b : Z) (f : Z -> R) : R := average a b (fun i => (f i - average a b f) ^ 2).
Definition residual (a b : Z) (flux g : Z -> R) : R := sum_over a b (fun i => (flux i - g i) ^ 2) / variance a b flux.
