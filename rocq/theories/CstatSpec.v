(** Vocabulary for the statements about the statistics program of the C extractor. *)
From Coq Require Import ZArith List Reals.
From Verif Require Import AbsorptionSpec.
Import ListNotations.
Local Open Scope R_scope.

(** A list extended to all integers: its first value on the left, zero on the right. *)
Definition extended (a : list R) (m : Z) : R :=
  if (m <? 0)%Z then nth 0 a 0 else nth (Z.to_nat m) a 0.

(** What smoothing should do on the right: repeat the last value there as well. *)
Definition extended_both (a : list R) (m : Z) : R :=
  if (m <? 0)%Z then nth 0 a 0 else
  if (m <? Z.of_nat (length a))%Z then nth (Z.to_nat m) a 0 else nth (length a - 1) a 0.

(** The widths whose window reaches h places to either side. *)
Definition half_width (h : nat) (width : Z) : Prop :=
  width = (2 * Z.of_nat h + 1)%Z \/ width = (2 * Z.of_nat h + 2)%Z.

(** The window of 2h+1 values around position i, added up and divided by w. *)
Definition window_mean (h : nat) (w : R) (a : Z -> R) (i : nat) : R :=
  zsum h (fun d => a (Z.of_nat i + d)%Z) / w.

(** Squared modulus of a Fourier coefficient over the squared length. *)
Definition mode_power (n : nat) (c : R * R) : R := (fst c ^ 2 + snd c ^ 2) / (INR n * INR n).

(** The flux contrast of a row of optical depths multiplied by s. *)
Definition contrast (s tau_eff : R) (row : list R) : list R :=
  map (fun t => exp (- (s * t)) / exp (- tau_eff) - 1) row.

(** Pixels whose transmission exp(-s tau) lies in the b-th of n equal intervals of [0, 1], the last
    of which contains 1 and everything above it. *)
Definition transmission_in (n b : nat) (s t : R) : Prop :=
  (INR b / INR n <= exp (- (s * t)) /\ (b = (n - 1)%nat \/ exp (- (s * t)) < INR (b + 1) / INR n)).

(** [n] is the number of entries of the list with the property. *)
Inductive count_of {A} (P : A -> Prop) : list A -> nat -> Prop :=
| count_nil : count_of P [] 0
| count_yes : forall x l n, P x -> count_of P l n -> count_of P (x :: l) (S n)
| count_no : forall x l n, ~ P x -> count_of P l n -> count_of P (x :: l) n.

(** The histogram of the transmission, normalised so that a flat distribution is 1 everywhere. *)
Definition is_pdf (s : R) (tau : list R) (d : list R) : Prop :=
  length d = 20%nat /\
  forall b, (b < 20)%nat -> exists n,
    count_of (transmission_in 20 b s) tau n /\ nth b d 0 = INR n * 20 / INR (length tau).

(** The optical depths of sightline j in an array holding one sightline after another. *)
Definition sightline (nbins j : nat) (tau : list R) : list R := firstn nbins (skipn (j * nbins) tau).

(** The mean over sightlines 0 .. n-1. *)
Definition sightline_mean (n : nat) (f : nat -> R) : R := rsum (map f (seq 0 n)) / INR n.

(** [p] is the power spectrum which the program reports for optical depths multiplied by s: entry 0
    is the squared real part of coefficient [zero_mode]; the others are running means over three
    neighbouring modes, the first mode being counted twice at the low end and a zero being used
    beyond the high end. *)
Definition is_power (fft : list R -> nat -> R * R) (zero_mode : nat) (s tau_eff : R) (numlos nbins : nat)
    (tau p : list R) : Prop :=
  let K := Nat.div (nbins + 1) 2 in
  let P j k := mode_power nbins (fft (contrast s tau_eff (sightline nbins j tau)) k) in
  length p = K /\
  nth 0 p 0 = sightline_mean numlos (fun j =>
    fst (fft (contrast s tau_eff (sightline nbins j tau)) zero_mode) ^ 2 / (INR nbins * INR nbins)) /\
  nth 1 p 0 = sightline_mean numlos (fun j => (2 * P j 1%nat + P j 2%nat) / 3) /\
  (forall k, (2 <= k < K - 1)%nat ->
     nth k p 0 = sightline_mean numlos (fun j => (P j (k - 1)%nat + P j k + P j (k + 1)%nat) / 3)) /\
  nth (K - 1) p 0 = sightline_mean numlos (fun j => (P j (K - 2)%nat + P j (K - 1)%nat) / 3).
