(** Vocabulary for the statements about depositing one particle on one sightline.
    The model is used only for the names of the kernels, the line parameters and (in
    [pixel_tau]) the mean over one pixel, which C13 specifies separately. *)
From Coq Require Import ZArith List Reals.
From Verif Require Import AbsorptionModel.
Import ListNotations.
Local Open Scope R_scope.

Definition rsum (l : list R) : R := fold_right Rplus 0 l.

(** The sum of f over the 2M+1 integers -M .. M. *)
Definition zsum (M : nat) (f : Z -> R) : R :=
  rsum (map (fun i => f (Z.of_nat i - Z.of_nat M)%Z) (seq 0 (2 * M + 1))).

(** Length of the part of [c, d] lying in [a, b]. *)
Definition overlap (a b c d : R) : R := Rmax 0 (Rmin b d - Rmax a c).

(** Pixel j of n pixels of width w, repeated with period n*w, meets the open interval (a, b). *)
Definition pixel_meets (w : R) (n j : Z) (a b : R) : Prop :=
  exists (x : R) (m : Z),
    a < x < b /\ IZR (j + m * n) * w <= x <= IZR (j + m * n + 1) * w.

(** [b] is [a] rotated by k places: pixel j of a is pixel (j+k) mod n of b. *)
Definition rotated (k : Z) (a b : list R) : Prop :=
  length a = length b /\
  forall j : Z, (0 <= j < Z.of_nat (length a))%Z ->
    nth (Z.to_nat ((j + k) mod Z.of_nat (length a))) b 0 = nth (Z.to_nat j) a 0.

(** The trapezium rule with n panels. *)
Definition trapezium (f : R -> R) (a b : R) (n : nat) : R :=
  (b - a) / INR n *
  (f a / 2 + rsum (map (fun i => f (a + INR i * ((b - a) / INR n))) (seq 1 (n - 1))) + f b / 2).

(** The B-splines of third and fifth order in truncated powers, normalised in three dimensions. *)
Definition cubic_spline (q : R) : R := 8 / PI * (2 * Rmax 0 (1 - q) ^ 3 - 8 * Rmax 0 (1 / 2 - q) ^ 3).
Definition quintic_spline (q : R) : R :=
  3 ^ 7 / (40 * PI) * (Rmax 0 (1 - q) ^ 5 - 6 * Rmax 0 (2 / 3 - q) ^ 5 + 15 * Rmax 0 (1 / 3 - q) ^ 5).

(** The part of [c, d] lying in [a, b] integrated with the trapezium rule of [n] panels. *)
Definition trapezium_on (f : R -> R) (a b c d : R) (n : nat) : R :=
  if Rlt_dec (Rmin b d) (Rmax a c) then 0 else trapezium f (Rmax a c) (Rmin b d) n.

(** A line profile which is non-negative and does not increase with the distance from its centre. *)
Definition bell (p : R -> R) : Prop :=
  (forall u, 0 <= p u) /\ (forall u v, Rabs u <= Rabs v -> p v <= p u).

(** Walking away from pixel c, pixel z is reached if no pixel strictly before it (on the same
    side, c itself included when walking up) holds less than the threshold t. *)
Definition reached (t : R) (v : Z -> R) (c z : Z) : Prop :=
  forall z', (c <= z' < z)%Z \/ (z < z' < c)%Z -> t <= v z'.

(** The pixels within half a spectrum of n pixels of c. *)
Definition in_window (n c z : Z) : Prop := (c - n / 2 <= z < c + n / 2)%Z.

(** Does the particle take part, its centre and half extent along the line. *)
Definition takes_part (k : kern) (box dr2 smooth : R) : Prop :=
  match k with Voronoi => dr2 <= 2 * box /\ smooth <= 2 * box | _ => dr2 < smooth * smooth end.
Definition centre (k : kern) (dr2 pos smooth : R) : R :=
  match k with Voronoi => (dr2 + smooth) / 2 | _ => pos end.
Definition half_extent (k : kern) (dr2 smooth : R) : R :=
  match k with Voronoi => (smooth - dr2) / 2 | _ => sqrt (smooth * smooth - dr2) end.

(** Mean optical depth in the pixel starting at velocity z*bin, of a particle whose centre is at
    velocity [vel]. *)
Definition pixel_tau (profile : R -> R -> R) (L : line) (k : kern) (n : nat)
    (dr2 dens vel temp smooth : R) (z : Z) : R :=
  let b := bfac L * sqrt temp in
  let bin := vbox L / INR n in
  let vdr2 := match k with Voronoi => velfac L * dr2 | _ => velfac L * dr2 * velfac L end in
  sigma_a L / sqrt PI * (light_kms / b) * dens *
  tau_kern_outer profile k b vdr2 (velfac L * smooth) (voigt_fac L / b)
    (IZR z * bin - vel) (IZR z * bin - vel + bin) / velfac L.

(** Velocity of the particle along the line: Hubble flow plus peculiar. *)
Definition particle_vel (L : line) (k : kern) (dr2 ppos pvel smooth : R) : R :=
  velfac L * centre k dr2 ppos smooth + pvel.

(** The same line with another tail threshold. *)
Definition with_tail (L : line) (t : R) : line :=
  mkAbs t (sigma_a L) (bfac L) (voigt_fac L) (velfac L) (vbox L).
