(** Specification vocabulary for noise. *)
From Coq Require Import Reals List ZArith.
From Verif Require Import NoiseModel.
Import ListNotations.
Local Open Scope R_scope.

(** The [k]-th standard normal number of the stream with the given seed. *)
Fixpoint state_at (r : generator) (s : Z) (k : nat) : G r :=
  match k with
  | 0%nat => seed_state r s
  | S k' => snd (gauss r (state_at r s k'))
  end.
Definition stream (r : generator) (s : Z) (k : nat) : R := fst (gauss r (state_at r s k)).

(** [new] is [old] plus the noise of spectrum [i] at signal to noise [snr]. *)
Definition noisy (r : generator) (i : Z) (snr : R) (old new : list R) : Prop :=
  length new = length old /\
  forall k x, nth_error old k = Some x -> nth_error new k = Some (x + 1 / snr * stream r i k).

(** [d] is the first number of the stream of seed [2 i], scaled by [ce], that
    lies within the limits. *)
Definition first_within (r : generator) (i : Z) (ce lo hi d : R) : Prop :=
  exists k, d = ce * stream r (2 * i) k /\ lo <= d <= hi /\
  forall m, (m < k)%nat -> ~ lo <= ce * stream r (2 * i) m <= hi.

(** Two calls gave the same arrays, or both raised. *)
Definition same_result {S} (a b : outcome S) : Prop :=
  match a, b with
  | Done f x _, Done f' x' _ => f = f' /\ x = x'
  | Raise, Raise => True
  | _, _ => False
  end.
