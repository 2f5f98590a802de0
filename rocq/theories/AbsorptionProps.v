(** C07-C13, C52: depositing one particle on one sightline. *)
From Coq Require Import ZArith List Bool Reals Lra Lia.
From Flocq Require Import Core.Raux.
From Coquelicot Require Import Coquelicot.
From Verif Require Import AbsorptionModel AbsorptionSpec KernelProofs AbsorptionProofs TauProofs.
Import ListNotations.
Local Open Scope R_scope.

(** C07: the pixels together gain density times chord length, whatever the pixel grid. *)
Theorem C07_tophat_conserved : forall vbox velfac (n : nat) dr2 dens pos smooth colden,
  0 < vbox -> 0 < velfac -> (0 < n)%nat -> length colden = n -> dr2 < smooth * smooth ->
  exists colden',
    add_colden_particle TopHat vbox velfac (Z.of_nat n) dr2 dens pos smooth colden = Some colden' /\
    rsum colden' = rsum colden + dens * (3 / (4 * PI) * (2 * sqrt (smooth * smooth - dr2))).
Proof. exact C07_tophat_aux. Qed.
Print Assumptions C07_tophat_conserved.

Theorem C07_voronoi_conserved : forall vbox velfac (n : nat) low high dens pos colden,
  0 < vbox -> 0 < velfac -> (0 < n)%nat -> length colden = n ->
  low <= high -> high <= 2 * (vbox / velfac) ->
  exists colden',
    add_colden_particle Voronoi vbox velfac (Z.of_nat n) low dens pos high colden = Some colden' /\
    rsum colden' = rsum colden + dens * (high - low).
Proof. exact C07_voronoi_aux. Qed.
Print Assumptions C07_voronoi_conserved.

(** A particle three times the box, at a negative position, in a box of one pixel. *)
Example C07_case : exists c, add_colden_particle TopHat 10 2 1 0 7 (-3) 15 [1] = Some c /\
  rsum c = 1 + 7 * (3 / (4 * PI) * (2 * 15)).
Proof.
  destruct (C07_tophat_conserved 10 2 1 0 7 (-3) 15 [1]) as (c & E & S); try lra; try lia; try reflexivity.
  exists c. split; [exact E|]. rewrite S. unfold rsum. simpl.
  replace (15 * 15 - 0) with (15 * 15) by ring. rewrite sqrt_square by lra. ring.
Qed.

(** C08: in bounds, and every pixel gains exactly its share of the particle, summed over the
    periodic images. *)
Theorem C08_in_bounds : forall k vbox velfac (n : nat) dr2 dens pos smooth colden,
  (0 < n)%nat -> length colden = n ->
  exists colden',
    add_colden_particle k vbox velfac (Z.of_nat n) dr2 dens pos smooth colden = Some colden' /\
    length colden' = n.
Proof. exact colden_total_function. Qed.
Print Assumptions C08_in_bounds.

Theorem C08_tophat_pixels : forall vbox velfac (n : nat) dr2 dens pos smooth colden colden',
  0 < vbox -> 0 < velfac -> (0 < n)%nat -> length colden = n -> dr2 < smooth * smooth ->
  add_colden_particle TopHat vbox velfac (Z.of_nat n) dr2 dens pos smooth colden = Some colden' ->
  let r := sqrt (smooth * smooth - dr2) in let w := vbox / velfac / INR n in
  forall j, (j < n)%nat ->
  exists M0, forall M, (M0 <= M)%nat ->
    nth j colden' 0 = nth j colden 0 + dens * (3 / (4 * PI) *
      zsum M (fun m => overlap (pos - r) (pos + r)
                         (IZR (Z.of_nat j + m * Z.of_nat n) * w)
                         (IZR (Z.of_nat j + m * Z.of_nat n + 1) * w))).
Proof. exact C08_tophat_pixels_aux. Qed.
Print Assumptions C08_tophat_pixels.

Theorem C08_voronoi_pixels : forall vbox velfac (n : nat) low high dens pos colden colden',
  0 < vbox -> 0 < velfac -> (0 < n)%nat -> length colden = n ->
  low <= high -> high <= 2 * (vbox / velfac) ->
  add_colden_particle Voronoi vbox velfac (Z.of_nat n) low dens pos high colden = Some colden' ->
  let w := vbox / velfac / INR n in
  forall j, (j < n)%nat ->
  exists M0, forall M, (M0 <= M)%nat ->
    nth j colden' 0 = nth j colden 0 + dens *
      zsum M (fun m => overlap low high
                         (IZR (Z.of_nat j + m * Z.of_nat n) * w)
                         (IZR (Z.of_nat j + m * Z.of_nat n + 1) * w)).
Proof. exact C08_voronoi_pixels_aux. Qed.
Print Assumptions C08_voronoi_pixels.

(** For every kernel: pixels not met by the particle are unchanged. *)
Theorem C08_sph_pixels : forall k vbox velfac (n : nat) dr2 dens pos smooth colden colden',
  k = Cubic \/ k = Quintic ->
  0 < vbox -> 0 < velfac -> (0 < n)%nat -> length colden = n -> 0 <= dr2 -> 0 < smooth -> dr2 < smooth * smooth ->
  add_colden_particle k vbox velfac (Z.of_nat n) dr2 dens pos smooth colden = Some colden' ->
  let r := sqrt (smooth * smooth - dr2) in let w := vbox / velfac / INR n in
  let W := match k with Cubic => cubic_spline | _ => quintic_spline end in
  forall j, (j < n)%nat ->
  exists M0, forall M, (M0 <= M)%nat ->
    nth j colden' 0 = nth j colden 0 + dens *
      zsum M (fun m => trapezium_on (fun z => W (sqrt (dr2 + (z - pos) * (z - pos)) / smooth)) (pos - r) (pos + r)
                         (IZR (Z.of_nat j + m * Z.of_nat n) * w)
                         (IZR (Z.of_nat j + m * Z.of_nat n + 1) * w) 8).
Proof. exact C08_sph_pixels_aux. Qed.
Print Assumptions C08_sph_pixels.

Theorem C08_untouched : forall k vbox velfac (n : nat) dr2 dens pos smooth colden colden',
  0 < vbox -> 0 < velfac -> (0 < n)%nat -> length colden = n -> takes_part k (vbox / velfac) dr2 smooth ->
  add_colden_particle k vbox velfac (Z.of_nat n) dr2 dens pos smooth colden = Some colden' ->
  let c := centre k dr2 pos smooth in let r := half_extent k dr2 smooth in
  forall j, (j < n)%nat ->
  ~ pixel_meets (vbox / velfac / INR n) (Z.of_nat n) (Z.of_nat j) (c - r) (c + r) ->
  nth j colden' 0 = nth j colden 0.
Proof. exact C08_no_overlap_aux. Qed.
Print Assumptions C08_untouched.

Theorem C08_outside_kernel : forall k vbox velfac n dr2 dens pos smooth colden,
  ~ takes_part k (vbox / velfac) dr2 smooth ->
  add_colden_particle k vbox velfac n dr2 dens pos smooth colden = Some colden.
Proof. exact colden_skip. Qed.
Print Assumptions C08_outside_kernel.

Theorem C08_never_decreases : forall k vbox velfac (n : nat) dr2 dens pos smooth colden colden',
  (0 < n)%nat -> length colden = n -> 0 <= dens -> 0 < smooth \/ k = TopHat \/ k = Voronoi ->
  add_colden_particle k vbox velfac (Z.of_nat n) dr2 dens pos smooth colden = Some colden' ->
  forall j, nth j colden 0 <= nth j colden' 0.
Proof. exact C08_nonneg_aux. Qed.
Print Assumptions C08_never_decreases.

(** A particle in the middle of a ten pixel box does not touch pixel 0. *)
Example C08_case : takes_part Cubic (10 / 1) 0 1 /\
  ~ pixel_meets (10 / 1 / INR 10) 10 0 (5 - half_extent Cubic 0 1) (5 + half_extent Cubic 0 1).
Proof.
  split; [simpl; lra|]. intros (x & m & (H1 & H2) & H3 & H4). simpl half_extent in *.
  replace (1 * 1 - 0) with 1 in * by ring. rewrite sqrt_1 in *.
  replace (10 / 1 / INR 10) with 1 in * by (replace (INR 10) with 10 by (simpl; lra); field).
  rewrite Rmult_1_r in *.
  assert (A : (0 + m * 10 < 6)%Z) by (apply lt_IZR; lra).
  assert (B : (4 < 0 + m * 10 + 1)%Z) by (apply lt_IZR; lra). lia.
Qed.

(** C09: translation covariance. *)
Theorem C09_shift : forall k vbox velfac (n : nat) dr2 dens pos smooth (s : Z) a1 a2,
  k <> Voronoi -> 0 < vbox -> 0 < velfac -> (0 < n)%nat ->
  let w := vbox / velfac / INR n in
  add_colden_particle k vbox velfac (Z.of_nat n) dr2 dens pos smooth (repeat 0 n) = Some a1 ->
  add_colden_particle k vbox velfac (Z.of_nat n) dr2 dens (pos + IZR s * w) smooth (repeat 0 n) = Some a2 ->
  rotated s a1 a2.
Proof. exact C09_shift_aux. Qed.
Print Assumptions C09_shift.

Theorem C09_shift_voronoi : forall vbox velfac (n : nat) low high dens pos pos' (s : Z) a1 a2,
  0 < vbox -> 0 < velfac -> (0 < n)%nat ->
  let w := vbox / velfac / INR n in
  low <= high -> high <= 2 * (vbox / velfac) -> high + IZR s * w <= 2 * (vbox / velfac) ->
  add_colden_particle Voronoi vbox velfac (Z.of_nat n) low dens pos high (repeat 0 n) = Some a1 ->
  add_colden_particle Voronoi vbox velfac (Z.of_nat n) (low + IZR s * w) dens pos' (high + IZR s * w) (repeat 0 n)
    = Some a2 ->
  rotated s a1 a2.
Proof. exact C09_shift_voronoi_aux. Qed.
Print Assumptions C09_shift_voronoi.

Theorem C09_whole_box : forall k vbox velfac (n : nat) dr2 dens pos smooth (m : Z),
  k <> Voronoi -> 0 < vbox -> 0 < velfac -> (0 < n)%nat ->
  add_colden_particle k vbox velfac (Z.of_nat n) dr2 dens (pos + IZR m * (vbox / velfac)) smooth (repeat 0 n) =
  add_colden_particle k vbox velfac (Z.of_nat n) dr2 dens pos smooth (repeat 0 n).
Proof. exact C09_box_aux. Qed.
Print Assumptions C09_whole_box.

(** Rotation is a real statement: the deposit is not constant. *)
Example C09_case : exists a1 a2,
  add_colden_particle Voronoi 3 1 3 0 5 0 1 (repeat 0 3) = Some a1 /\
  add_colden_particle Voronoi 3 1 3 1 5 0 2 (repeat 0 3) = Some a2 /\
  rotated 1 a1 a2 /\ nth 0 a1 0 = 5 /\ nth 1 a1 0 = 0 /\ nth 1 a2 0 = 5.
Proof.
  destruct (C08_in_bounds Voronoi 3 1 3 0 5 0 1 (repeat 0 3)) as (a1 & E1 & L1); [lia|reflexivity|].
  destruct (C08_in_bounds Voronoi 3 1 3 1 5 0 2 (repeat 0 3)) as (a2 & E2 & L2); [lia|reflexivity|].
  exists a1, a2. split; [exact E1|]. split; [exact E2|].
  assert (W : 3 / 1 / INR 3 = 1) by (simpl; field).
  assert (Rt : rotated 1 a1 a2).
  { eapply (C09_shift_voronoi 3 1 3 0 1 5 0 0 1); try lra; try lia; [exact E1|].
    rewrite W. replace (0 + 1 * 1) with 1 by ring. replace (1 + 1 * 1) with 2 by ring. exact E2. }
  assert (Z1 : nth 1 a1 0 = 0).
  { rewrite (C08_untouched Voronoi 3 1 3 0 5 0 1 (repeat 0 3) a1); try lra; try lia; try reflexivity; auto.
    - simpl; lra.
    - simpl centre. simpl half_extent. rewrite W. intros (x & m & (H1 & H2) & H3 & H4).
      rewrite Rmult_1_r in *.
      assert (A : (1 + m * 3 < 1)%Z) by (apply lt_IZR; change (Z.of_nat 1) with 1%Z in *; change (Z.of_nat 3) with 3%Z in *; lra).
      assert (B : (0 < 1 + m * 3 + 1)%Z) by (apply lt_IZR; change (Z.of_nat 1) with 1%Z in *; change (Z.of_nat 3) with 3%Z in *; lra). lia. }
  assert (Z2 : nth 2 a1 0 = 0).
  { rewrite (C08_untouched Voronoi 3 1 3 0 5 0 1 (repeat 0 3) a1); try lra; try lia; try reflexivity; auto.
    - simpl; lra.
    - simpl centre. simpl half_extent. rewrite W. intros (x & m & (H1 & H2) & H3 & H4).
      rewrite Rmult_1_r in *.
      assert (A : (2 + m * 3 < 1)%Z) by (apply lt_IZR; change (Z.of_nat 2) with 2%Z in *; change (Z.of_nat 3) with 3%Z in *; lra).
      assert (B : (0 < 2 + m * 3 + 1)%Z) by (apply lt_IZR; change (Z.of_nat 2) with 2%Z in *; change (Z.of_nat 3) with 3%Z in *; lra). lia. }
  assert (S : rsum a1 = 5).
  { destruct (C07_voronoi_conserved 3 1 3 0 1 5 0 (repeat 0 3)) as (c & E & S); try lra; try lia; try reflexivity.
    change (Z.of_nat 3) with 3%Z in *. rewrite E1 in E. injection E as <-. rewrite S. unfold rsum. simpl. ring. }
  destruct a1 as [|x [|y [|z [|]]]]; simpl in L1; try discriminate.
  simpl in Z1, Z2. subst y z. unfold rsum in S. simpl in S.
  split; [exact Rt|]. split; [simpl; lra|]. split; [reflexivity|].
  destruct Rt as (_ & Rt). specialize (Rt 0%Z ltac:(simpl; lia)). simpl in Rt. vm_compute Z.to_nat in Rt.
  change (nth 1 a2 0 = x) in Rt. lra.
Qed.

(** C10: every pixel of the window is given its value once if the walk reaches it, and no other
    pixel is changed. *)
Theorem C10_pixels : forall profile L k (n : nat) dr2 dens ppos pvel temp smooth tau,
  (0 < n)%nat -> length tau = n -> takes_part k (vbox L / velfac L) dr2 smooth ->
  let vel := particle_vel L k dr2 ppos pvel smooth in
  let c := Zfloor (vel / (vbox L / INR n)) in
  let v := pixel_tau profile L k n dr2 dens vel temp smooth in
  exists tau',
    add_tau_particle profile L k (Z.of_nat n) dr2 dens ppos pvel temp smooth tau = Some tau' /\
    length tau' = n /\
    (forall z, in_window (Z.of_nat n) c z ->
       let j := Z.to_nat (z mod Z.of_nat n) in
       (reached (tautail L) v c z -> nth j tau' 0 = nth j tau 0 + v z) /\
       (~ reached (tautail L) v c z -> nth j tau' 0 = nth j tau 0)) /\
    (forall j, (forall z, in_window (Z.of_nat n) c z -> (z mod Z.of_nat n)%Z <> Z.of_nat j) ->
       nth j tau' 0 = nth j tau 0).
Proof. exact C10_pixels_aux. Qed.
Print Assumptions C10_pixels.

(** Which pixels the window covers: each at most once; all of them if n is even, all but one if
    n is odd. *)
Theorem C10_window : forall (n : nat) c, (0 < n)%nat ->
  (forall z1 z2, in_window (Z.of_nat n) c z1 -> in_window (Z.of_nat n) c z2 ->
     (z1 mod Z.of_nat n = z2 mod Z.of_nat n)%Z -> z1 = z2) /\
  (Nat.even n = true -> forall j, (j < n)%nat ->
     exists z, in_window (Z.of_nat n) c z /\ (z mod Z.of_nat n)%Z = Z.of_nat j) /\
  (Nat.even n = false -> forall j, (j < n)%nat ->
     ((exists z, in_window (Z.of_nat n) c z /\ (z mod Z.of_nat n)%Z = Z.of_nat j) <->
      Z.of_nat j <> ((c + Z.of_nat n / 2) mod Z.of_nat n)%Z)).
Proof. exact C10_window_aux. Qed.
Print Assumptions C10_window.

Theorem C10_rotation : forall profile L k (n : nat) dr2 dens ppos pvel temp smooth (s : Z) t1 t2,
  0 < vbox L -> (0 < n)%nat ->
  add_tau_particle profile L k (Z.of_nat n) dr2 dens ppos pvel temp smooth (repeat 0 n) = Some t1 ->
  add_tau_particle profile L k (Z.of_nat n) dr2 dens ppos (pvel + IZR s * (vbox L / INR n)) temp smooth
    (repeat 0 n) = Some t2 ->
  rotated s t1 t2.
Proof. exact C10_rotation_aux. Qed.
Print Assumptions C10_rotation.

(** The window wraps: seven pixels around pixel -1 leave out pixel 2 only. *)
Example C10_case : in_window 7 (-1) (-4) /\ in_window 7 (-1) 1 /\ ~ in_window 7 (-1) 2 /\
  ((-1 + 7 / 2) mod 7 = 2)%Z /\ takes_part Cubic 10 1 2.
Proof.
  unfold in_window. change (7 / 2)%Z with 3%Z. repeat split; try lia; try (vm_compute; reflexivity).
  simpl. lra.
Qed.

(** C11: if the walk cannot stop inside the kernel, the truncated optical depth is below the
    untruncated one (threshold zero) by less than the threshold, in every pixel. *)
Theorem C11_tail : forall profile L k (n : nat) dr2 dens ppos pvel temp smooth tau t1 t2,
  (0 < n)%nat -> length tau = n -> takes_part k (vbox L / velfac L) dr2 smooth ->
  0 < tautail L -> 0 <= sigma_a L -> 0 < bfac L -> 0 < temp -> 0 < velfac L -> 0 < vbox L ->
  0 <= dens -> 0 < smooth -> (k = Voronoi -> dr2 <= smooth) ->
  let b := bfac L * sqrt temp in
  bell (fun u => profile u (voigt_fac L / b)) ->
  let vel := particle_vel L k dr2 ppos pvel smooth in
  let bin := vbox L / INR n in
  let c := Zfloor (vel / bin) in
  let edge := velfac L * half_extent k dr2 smooth in
  (forall z, in_window (Z.of_nat n) c z ->
     - edge < IZR (z + 1) * bin - vel -> IZR z * bin - vel < edge ->
     tautail L <= pixel_tau profile L k n dr2 dens vel temp smooth z) ->
  add_tau_particle profile L k (Z.of_nat n) dr2 dens ppos pvel temp smooth tau = Some t1 ->
  add_tau_particle profile (with_tail L 0) k (Z.of_nat n) dr2 dens ppos pvel temp smooth tau = Some t2 ->
  forall j, nth j t2 0 - tautail L < nth j t1 0 <= nth j t2 0.
Proof. exact C11_tail_aux. Qed.
Print Assumptions C11_tail.

(** The hypotheses hold for a thermal line smaller than its pixel. *)
Example C11_case : exists L,
  0 < tautail L /\ 0 <= sigma_a L /\ 0 < bfac L /\ 0 < velfac L /\ 0 < vbox L /\
  takes_part TopHat (vbox L / velfac L) 0 1 /\
  (forall z, in_window 64 (Zfloor (particle_vel L TopHat 0 2 0 1 / (vbox L / INR 64))) z ->
     - (velfac L * half_extent TopHat 0 1) < IZR (z + 1) * (vbox L / INR 64) - particle_vel L TopHat 0 2 0 1 ->
     IZR z * (vbox L / INR 64) - particle_vel L TopHat 0 2 0 1 < velfac L * half_extent TopHat 0 1 ->
     tautail L <= pixel_tau gauss L TopHat 64 0 1 (particle_vel L TopHat 0 2 0 1) 1 1 z).
Proof. exact C11_example_aux. Qed.

(** Without that guard the claim is false even for a purely thermal (Gaussian) line: the eight
    point quadrature of a wide cold particle is a comb, and the walk stops in the first gap. *)
Theorem C11_gap_refuted : exists t1 t2,
  bell (fun u => gauss u 0) /\
  add_tau_particle gauss narrow_line TopHat 64 0 1 0 0 1 64 (repeat 0 64) = Some t1 /\
  add_tau_particle gauss (with_tail narrow_line 0) TopHat 64 0 1 0 0 1 64 (repeat 0 64) = Some t2 /\
  nth 3 t1 0 = 0 /\ nth 3 t2 0 >= 2 * tautail narrow_line.
Proof.
  destruct C11_refuted_aux as (t1 & t2 & H). exists t1, t2. split; [apply gauss_bell|exact H].
Qed.
Print Assumptions C11_gap_refuted.

(** C12 *)
Theorem C12_cubic : (forall q, continuity_pt sph_cubic_kernel q) /\
  (forall q, 0 <= q -> 0 <= sph_cubic_kernel q) /\
  (forall q, 1 <= q -> sph_cubic_kernel q = 0) /\
  (forall p q, 0 <= p <= q -> sph_cubic_kernel q <= sph_cubic_kernel p) /\
  is_RInt (fun q => 4 * PI * (sph_cubic_kernel q * q ^ 2)) 0 1 1.
Proof.
  split; [exact cubic_continuous|]. split; [exact cubic_nonneg|]. split; [exact cubic_zero|].
  split; [intros p q (H1 & H2); apply cubic_dec; assumption|exact cubic_norm].
Qed.
Print Assumptions C12_cubic.

Theorem C12_quintic : (forall q, continuity_pt sph_quintic_kernel q) /\
  (forall q, 0 <= q -> 0 <= sph_quintic_kernel q) /\
  (forall q, 1 <= q -> sph_quintic_kernel q = 0) /\
  (forall p q, 0 <= p <= q -> sph_quintic_kernel q <= sph_quintic_kernel p) /\
  is_RInt (fun q => 4 * PI * (sph_quintic_kernel q * q ^ 2)) 0 1 1.
Proof.
  split; [exact quintic_continuous|]. split; [exact quintic_nonneg|]. split; [exact quintic_zero|].
  split; [intros p q (H1 & H2); apply quintic_dec; assumption|exact quintic_norm].
Qed.
Print Assumptions C12_quintic.

(** They are the B-splines. *)
Theorem C12_splines : forall q, 0 <= q ->
  sph_cubic_kernel q = cubic_spline q /\ sph_quintic_kernel q = quintic_spline q.
Proof. exact C12_splines_aux. Qed.
Print Assumptions C12_splines.

(** The top-hat weight actually used by the optical depth and by the column density. *)
Theorem C12_tophat : is_RInt (fun q => 4 * PI * (tau_weight TopHat q * q ^ 2)) 0 1 1 /\
  (forall lo hi h d r, - r <= lo <= hi /\ hi <= r ->
     tophat_kern_frac lo hi h d r = tau_weight TopHat 0 * (hi - lo)).
Proof.
  split; [exact tophat_norm|]. intros lo hi h d r ((H1 & H2) & H3). unfold tophat_kern_frac. cbn [tau_weight].
  rewrite Rmin_left by lra. rewrite (Rmax_left lo) by lra. rewrite Rmax_right by lra. reflexivity.
Qed.
Print Assumptions C12_tophat.

Example C12_case : 0 < sph_cubic_kernel 0 /\ sph_cubic_kernel (1/2) = 2 / PI.
Proof.
  split.
  - destruct (cubic_cases 0) as (H & _). rewrite H by lra.
    replace (cub1 0) with (32 / 4 / PI) by (unfold cub1; ring). apply norm3_pos.
  - destruct (cubic_cases (1/2)) as (H & _). rewrite H by lra. unfold cub1. field. apply PI_neq0.
Qed.

(** C13: along the particle, the quadrature of the SPH kernels is the trapezium rule ... *)
Theorem C13_sph_trapezium : forall profile k b d h aa v, k = Cubic \/ k = Quintic -> 0 < h -> d < h * h ->
  let r := sqrt (h * h - d) in
  let K := match k with Cubic => sph_cubic_kernel | _ => sph_quintic_kernel end in
  tau_kern_inner profile k b d h aa v =
  trapezium (fun u => profile ((u - v) / b) aa * K (sqrt (d + u * u) / h)) (- r) r 8.
Proof. exact C13_sph_aux. Qed.
Print Assumptions C13_sph_trapezium.

(** ... while the other two lose an eighth. *)
Theorem C13_tophat_low : forall (c b d h aa v : R), d < h * h ->
  tau_kern_inner (fun _ _ => c) TopHat b d h aa v =
    7 / 8 * (c * (3 / (4 * PI) * (2 * sqrt (h * h - d)))).
Proof. exact C13_defect_aux. Qed.
Print Assumptions C13_tophat_low.

Theorem C13_voronoi_low : forall (c b low high aa v : R), 0 < low -> low <= high ->
  tau_kern_inner (fun _ _ => c) Voronoi b low high aa v = 7 / 8 * (c * (high - low)).
Proof. exact C13_defect_voronoi_aux. Qed.
Print Assumptions C13_voronoi_low.

(** Across a pixel: the value at the middle if the pixel is narrow, else the trapezium rule with
    an even number of panels no wider than half the thermal width. *)
Theorem C13_narrow_bin : forall profile k b d h aa lo hi, hi - lo < b / 2 ->
  tau_kern_outer profile k b d h aa lo hi = tau_kern_inner profile k b d h aa ((lo + hi) / 2).
Proof. exact C13_narrow_bin_aux. Qed.
Print Assumptions C13_narrow_bin.

Theorem C13_bin_mean : forall profile k b d h aa lo hi, 0 < b -> b / 2 <= hi - lo ->
  exists m : nat, (1 <= m)%nat /\ (hi - lo) / INR (2 * m) <= b / 2 /\
    tau_kern_outer profile k b d h aa lo hi =
    trapezium (tau_kern_inner profile k b d h aa) lo hi (2 * m) / (hi - lo).
Proof. exact C13_bin_mean_aux. Qed.
Print Assumptions C13_bin_mean.

(** The column density of the SPH kernels in one pixel: the trapezium rule over the covered part. *)
Theorem C13_column_trapezium : forall K lo hi h d r,
  sph_kern_frac K lo hi h d r =
  if Rlt_dec (Rmin hi r) (Rmax lo (- r)) then 0
  else trapezium (fun z => K (sqrt (d + z * z) / h)) (Rmax lo (- r)) (Rmin hi r) 8.
Proof. exact sph_frac_trapezium. Qed.
Print Assumptions C13_column_trapezium.

Example C13_case : tau_kern_inner (fun _ _ => 1) Voronoi 1 2 10 0 0 = 7.
Proof. rewrite C13_voronoi_low by lra. field. Qed.

(** C52: a Voronoi cell starting at the edge of the box absorbs nothing, whatever its density. *)
Theorem C52_edge_cell_refuted : forall profile L (n : nat) dens ppos pvel temp high,
  (0 < n)%nat -> 0 < velfac L -> 0 < vbox L -> 0 <= high -> high <= 2 * (vbox L / velfac L) ->
  (forall tau, length tau = n ->
     add_tau_particle profile L Voronoi (Z.of_nat n) 0 dens ppos pvel temp high tau = Some tau) /\
  (exists colden,
     add_colden_particle Voronoi (vbox L) (velfac L) (Z.of_nat n) 0 dens ppos high (repeat 0 n) = Some colden /\
     rsum colden = dens * high).
Proof.
  intros profile L n dens ppos pvel temp high Hn Hv Hb H0 Hh. split.
  - intros tau Hl. apply voronoi_zero_start; assumption.
  - destruct (C07_voronoi_conserved (vbox L) (velfac L) n 0 high dens ppos (repeat 0 n)) as (c & E & S); auto.
    + apply repeat_length.
    + exists c. split; [exact E|]. rewrite S, rsum_zero; [ring|]. intros x Hx. apply repeat_spec in Hx. assumption.
Qed.
Print Assumptions C52_edge_cell_refuted.

Example C52_case : let L := mkAbs 1 1 1 1 1 10 in 0 <= 3 <= 2 * (vbox L / velfac L).
Proof. simpl. lra. Qed.
