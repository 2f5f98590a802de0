(** Vocabulary for the total absorption of one particle. *)
From Coq Require Import Reals List.
From Verif Require Import AbsorptionModel AbsorptionSpec.
Import ListNotations.
Local Open Scope R_scope.

(** The kernel integrated along the sightline, as sampled by eight panels: for the splines the trapezium rule over the
    chord, for the two kernels which do not vanish at their edge seven eighths of the chord. *)
Definition sampled (k : kern) (dr2 smooth : R) : R :=
  let r := half_extent k dr2 smooth in
  match k with
  | Cubic => trapezium (fun z => cubic_spline (sqrt (dr2 + z * z) / smooth)) (- r) r 8
  | Quintic => trapezium (fun z => quintic_spline (sqrt (dr2 + z * z) / smooth)) (- r) r 8
  | TopHat => 7 / 8 * (3 / (4 * PI) * (2 * r))
  | Voronoi => 7 / 8 * (2 * r)
  end.

(** Relative error allowed to the total of a thermal line of width b on pixels of width bin, when every part of the
    particle is at least q widths from the ends of the window. *)
Definition allowance (bin b q : R) : R := (Rmin bin (b / 2) / b) ^ 4 / 18 + (1 + q) * exp (- (q * q)).

(** The absorption of a line: what a column of one atom per unit area adds to the optical depth integrated over velocity
    in km/s. *)
Definition absorption (L : line) : R := sigma_a L * 299792.458.

(** One particle on a sightline. *)
Record parcel := mkParcel { p_dr2 : R; p_dens : R; p_pos : R; p_vel : R; p_temp : R; p_smooth : R }.

(** A parcel which is on the line, is thermally broadened, and ends q widths before the ends of the window of half the
    n pixels on either side. *)
Definition contained (L : line) (k : kern) (n : nat) (q : R) (p : parcel) : Prop :=
  let b := bfac L * sqrt (p_temp p) in
  0 <= p_dens p /\ 0 < p_temp p /\ 0 < p_smooth p /\ takes_part k (vbox L / velfac L) (p_dr2 p) (p_smooth p) /\
  (k = Voronoi -> 0 < p_dr2 p <= p_smooth p) /\
  q * b + velfac L * half_extent k (p_dr2 p) (p_smooth p) <= (INR (n / 2) - 1) * (vbox L / INR n).

(** [tau'] is [tau] after the parcels [ps] one after the other. *)
Fixpoint in_turn (step : parcel -> list R -> option (list R)) (ps : list parcel) (tau tau' : list R) : Prop :=
  match ps with
  | [] => tau' = tau
  | p :: rest => exists t, step p tau = Some t /\ in_turn step rest t tau'
  end.

(** The column of a parcel along the sightline, as sampled. *)
Definition column (k : kern) (p : parcel) : R := p_dens p * sampled k (p_dr2 p) (p_smooth p).
