(** Vocabulary for the Voigt fit of many spectra. *)
From Coq Require Import ZArith List Reals Arith Sorted Permutation.
From Verif Require Import AbsorptionSpec FilterModel FitModel VoigtsetModel.
Import ListNotations.
Local Open Scope R_scope.

(** Rounding up. *)
Definition ceil_div (a b : nat) : nat := ((a + b - 1) / b)%nat.

(** An order in which the pieces of [n] spectra may finish: the spectra are handed out in pieces of a size that makes about four per
    process, and every piece finishes once. *)
Definition schedule (workers n : nat) (order : list nat) : Prop :=
  Permutation order (seq 0 (ceil_div n (ceil_div n (4 * workers)))).

(** Some components in order of position. *)
Definition in_order (found sorted : list comp) : Prop :=
  Permutation found sorted /\ StronglySorted (fun a b => c_mean a <= c_mean b) sorted.

(** All neighbours in a spectrum of length [w], the last and the first among them, are at least [close] apart. *)
Definition apart (w close : R) (cs : list comp) : Prop :=
  forall i, (i < length cs)%nat -> let at_ j := c_mean (nth j cs (mkComp 0 0 0)) in
    close <= (if Nat.eqb (S i) (length cs) then at_ 0%nat + w else at_ (S i)) - at_ i.

(** [fit] is the fit of one spectrum with its default settings. *)
Definition fits (dvbin : R) (voigt : R -> Z -> R) (bounded : (R -> option R) -> option R) (simplex : list R -> list R -> option found)
    (fit : list R -> option (list comp)) : Prop :=
  forall tau, match do_fit dvbin voigt bounded (simplex tau) (length tau) 0.0001 0.95 4 tau with
  | Done cs => fit tau = Some cs
  | Raises => fit tau = None
  | Running => True
  end.
