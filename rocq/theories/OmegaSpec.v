(** Vocabulary for the statements about path lengths and the matter density in absorbers. *)
From Coq Require Import List Reals Arith.
From Verif Require Import OmegaModel.
Import ListNotations.
Local Open Scope R_scope.

(** Edge i of bins of a fifth of a decade starting at the threshold, and the middle of bin i. *)
Definition dla_edge (thresh : R) (i : nat) : R := thresh * Rpower 10 (INR i / 5).
Definition dla_centre (thresh : R) (i : nat) : R := (dla_edge thresh i + dla_edge thresh (S i)) / 2.

(** x lies in bin i of n bins, of which the last contains its upper edge. *)
Definition dla_bin (thresh : R) (n i : nat) (x : R) : Prop :=
  dla_edge thresh i <= x /\ (x < dla_edge thresh (S i) \/ (S i = n /\ x = dla_edge thresh n)).

(** What an absorber in bin i of n counts for, in units of the column density in the middle of the bin. *)
Definition bin_share (n i : nat) : R :=
  let r := Rpower 10 (/ 5) in
  (1 + r) / 4 * ((if (S i <? n)%nat then 1 else 0) + (if (0 <? i)%nat then / r else 0)).

(** An absorber of column density x enters the density with w. *)
Definition counts_for (thresh : R) (n : nat) (x w : R) : Prop :=
  (exists i, (i < n)%nat /\ dla_bin thresh n i x /\ w = bin_share n i * dla_centre thresh i) \/
  ((forall i, (i < n)%nat -> ~ dla_bin thresh n i x) /\ w = 0).

(** The constants and the parameters of the simulation are positive, the redshift is not negative. *)
Definition proper (S : setup) : Prop :=
  0 < u_h100 S /\ 0 < u_light S /\ 0 < u_length S /\ 0 < u_grav S /\ 0 < s_box S /\ 0 <= s_red S /\ 0 < s_hubble S.

(** The path of one sightline: absorption distance (1+z)^2 H0 L/c or redshift interval H(z) L/c for the comoving
    length L of the box (in units with the Hubble parameter taken out of L and H). *)
Definition box_path (S : setup) (dX : bool) : R :=
  let l := s_box S * u_length S in
  let h0 := u_h100 S in
  if dX then (1 + s_red S) ^ 2 * (h0 * l / u_light S)
  else h0 * sqrt (s_omegam S * (1 + s_red S) ^ 3 + 1 - s_omegam S) * l / u_light S.

(** The critical density 3 H0^2 / (8 pi G). *)
Definition critical (S : setup) : R := 3 * (u_h100 S * s_hubble S) ^ 2 / (8 * PI * u_grav S).
