(** Specification vocabulary: the background of a rate network in the terms of the gas properties. *)
From Coq Require Import Reals.
From Verif Require Import RatesModel NeutralModel.
Local Open Scope R_scope.

Definition same_background (n : network) : uvb := Uvb (RatesModel.gray n) (Rpower 10 (lg_gH0 n)) (RatesModel.f_bar n).
