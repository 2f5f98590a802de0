(** Model of the deposition of one particle on one sightline: fake_spectra/absorption.cpp and
    fake_spectra/singleabs.h.  Exact real arithmetic; int overflow of pixel numbers (a particle
    more than 2^31 pixels from the origin) and float rounding are not modelled. *)
From Coq Require Import ZArith List Bool Reals.
From Flocq Require Import Core.Raux.
Import ListNotations.
Local Open Scope R_scope.

(** The kernel constants of singleabs.h:9-12; any other number behaves like TOP_HAT_KERNEL in
    get_kern_frac (absorption.cpp:136-148) and is not modelled. *)
Inductive kern := TopHat | Cubic | Voronoi | Quintic.

(** singleabs.h:17-26. *)
Definition sph_cubic_kernel (q : R) : R :=
  let norm := 32 / 4 / PI in
  if Rle_dec 1 q then 0
  else if Rlt_dec q (1 / 2) then norm * (1 - 6 * q * q + 6 * q * q * q)
  else norm * (2 * (1 - q) ^ 3).

(** singleabs.h:31-42. *)
Definition sph_quintic_kernel (q : R) : R :=
  let norm := 9 / 40 / PI in
  if Rle_dec 1 q then 0
  else if Rlt_dec q (1 / 3) then
    norm * 6 * (11 - 90 * q * q + 405 * q * q * q * q - 405 * q * q * q * q * q)
  else if Rlt_dec q (2 / 3) then norm * ((3 - 3 * q) ^ 5 - 6 * (2 - 3 * q) ^ 5)
  else norm * (243 * (1 - q) ^ 5).

(** absorption.cpp:53-74 (cubic) and 76-97 (quintic): the same code with another kernel.  The
    loop "for i = 1; i < NGRID" with NGRID = 8. *)
Definition sph_kern_frac (K : R -> R) (zlow zhigh smooth dr2 zrange : R) : R :=
  let zlow := Rmax zlow (- zrange) in
  let zhigh := Rmin zhigh zrange in
  if Rlt_dec zhigh zlow then 0
  else
    let qlow := sqrt (dr2 + zlow * zlow) / smooth in
    let deltaz := (zhigh - zlow) / 8 in
    let total :=
      fold_left (fun total i =>
          let zz := INR i * deltaz + zlow in
          let q := sqrt (dr2 + zz * zz) / smooth in
          total + K q) (seq 1 7) (K qlow / 2) in
    let qhigh := sqrt (dr2 + zhigh * zhigh) / smooth in
    deltaz * (total + K qhigh / 2).

(** absorption.cpp:109-115. *)
Definition tophat_kern_frac (zlow zhigh smooth dr2 zrange : R) : R :=
  3 / 4 / PI * Rmax 0 (Rmin zhigh zrange - Rmax zlow (- zrange)).

(** absorption.cpp:129-134. *)
Definition arepo_kern_frac (zlow zhigh smooth dr2 zrange : R) : R :=
  Rmax 0 (Rmin zhigh zrange - Rmax zlow (- zrange)).

(** absorption.cpp:136-148. *)
Definition kern_frac (k : kern) : R -> R -> R -> R -> R -> R :=
  match k with
  | TopHat => tophat_kern_frac
  | Cubic => sph_kern_frac sph_cubic_kernel
  | Voronoi => arepo_kern_frac
  | Quintic => sph_kern_frac sph_quintic_kernel
  end.

(** arr[j] += v; [None] is an access outside the array. *)
Fixpoint add_nth (j : nat) (v : R) (arr : list R) : option (list R) :=
  match arr, j with
  | [], _ => None
  | x :: t, O => Some (x + v :: t)
  | x :: t, S j' => option_map (cons x) (add_nth j' v t)
  end.
(** The same for an index of type int. *)
Definition add_at (j : Z) (v : R) (arr : list R) : option (list R) :=
  if (j <? 0)%Z then None else add_nth (Z.to_nat j) v arr.

(** absorption.cpp:199-201: C remainder (truncated) followed by the sign fix. *)
Definition wrap_index (z nbins : Z) : Z :=
  let j := Z.rem z nbins in if (j <? 0)%Z then (j + nbins)%Z else j.

(** for(z = a; z < a + n; z++) *)
Definition zrange_up (a : Z) (n : nat) : list Z := map (fun i => (a + Z.of_nat i)%Z) (seq 0 n).

(** absorption.cpp:193-209: the deposition loop. *)
Definition deposit (nbins : Z) (value : Z -> R) (zs : list Z) (arr : option (list R))
  : option (list R) :=
  fold_left (fun acc z =>
      match acc with
      | None => None
      | Some a => add_at (wrap_index z nbins) (value z) a
      end) zs arr.

(** absorption.cpp:167-210.  [boxsize] is vbox / velfac. *)
Definition add_colden_particle (k : kern) (vbox velfac : R) (nbins : Z)
    (dr2 dens pos smooth : R) (colden : list R) : option (list R) :=
  let skip := match k with
    | Voronoi => if Rlt_dec (2 * vbox / velfac) dr2 then true
                 else if Rlt_dec (2 * vbox / velfac) smooth then true else false
    | _ => if Rle_dec (smooth * smooth - dr2) 0 then true else false
    end in
  if skip then Some colden
  else
    let pos1 := match k with Voronoi => (dr2 + smooth) / 2 | _ => pos end in
    let zrange := match k with Voronoi => (smooth - dr2) / 2 | _ => sqrt (smooth * smooth - dr2) end in
    let boxtokpc := vbox / IZR nbins / velfac in
    let zlow := Zfloor ((pos1 - zrange) / boxtokpc) in
    let zhigh := Zceil ((pos1 + zrange) / boxtokpc) in
    deposit nbins
      (fun z => let plow := boxtokpc * IZR z - pos1 in
                dens * kern_frac k plow (plow + boxtokpc) smooth dr2 zrange)
      (zrange_up zlow (Z.to_nat (zhigh - zlow + 1))) (Some colden).

(** ** Optical depth *)
Section Tau.

(** The Voigt profile, singleabs.h:56-61 (real part of the Faddeeva function): any function. *)
Variable profile : R -> R -> R.

(** singleabs.h:81-90. *)
Definition m_vhigh (k : kern) (vdr2 vsmooth : R) : R :=
  match k with
  | Voronoi =>
      if Rlt_dec 0 vdr2 then (if Rlt_dec 0 vsmooth then (vsmooth - vdr2) / 2 else 0) else 0
  | _ => if Rlt_dec vdr2 (vsmooth * vsmooth) then sqrt (vsmooth * vsmooth - vdr2) else 0
  end.

(** The kernel factor of singleabs.h:158-163 (no factor for the Voronoi mesh). *)
Definition tau_weight (k : kern) (q : R) : R :=
  match k with
  | Cubic => sph_cubic_kernel q
  | Quintic => sph_quintic_kernel q
  | TopHat => 3 / 4 / PI
  | Voronoi => 1
  end.

(** singleabs.h:143-167. *)
Definition tau_kern_inner (k : kern) (btherm vdr2 vsmooth aa vouter : R) : R :=
  let vhigh := m_vhigh k vdr2 vsmooth in
  let deltav := 2 * vhigh / 8 in
  deltav * fold_left (fun total i =>
      let vv := INR i * deltav - vhigh in
      let q := sqrt (vdr2 + vv * vv) / vsmooth in
      let vdiff := vv - vouter in
      total + profile (vdiff / btherm) aa * tau_weight k q) (seq 1 7) 0.

(** singleabs.h:104-126. *)
Definition tau_kern_outer (k : kern) (btherm vdr2 vsmooth aa vlow vhigh : R) : R :=
  let inner := tau_kern_inner k btherm vdr2 vsmooth aa in
  if Rlt_dec (vhigh - vlow) (btherm / 2) then inner ((vhigh + vlow) / 2)
  else
    let npoints := (2 * Zceil ((vhigh - vlow) / (btherm / 2) / 2) + 1)%Z in
    let deltav := (vhigh - vlow) / (IZR npoints - 1) in
    let total := fold_left (fun total i => total + inner (INR i * deltav + vlow))
                   (seq 1 (Z.to_nat (npoints - 2))) (inner vlow / 2) in
    (total + inner vhigh / 2) / (IZR npoints - 1).

(** absorption.cpp:250-264 (and 266-278): the loop over pixels with its early exit. *)
Fixpoint tau_loop (nbins : Z) (tautail : R) (value : Z -> R) (zs : list Z) (tau : list R)
  : option (list R) :=
  match zs with
  | [] => Some tau
  | z :: zs' =>
      match add_at (wrap_index z nbins) (value z) tau with
      | None => None
      | Some tau' => if Rlt_dec (value z) tautail then Some tau'
                     else tau_loop nbins tautail value zs' tau'
      end
  end.

(** for(z = a; z > a - n; z--) *)
Definition zrange_down (a : Z) (n : nat) : list Z := map (fun i => (a - Z.of_nat i)%Z) (seq 0 n).

(** The members of LineAbsorption used by add_tau_particle (absorption.h:54-62). *)
Record line := mkAbs { tautail : R; sigma_a : R; bfac : R; voigt_fac : R; velfac : R; vbox : R }.

(** The speed of light in km/s: LIGHT/1e5, absorption.cpp:26. *)
Definition light_kms : R := 299792.458.

(** absorption.cpp:212-279. *)
Definition add_tau_particle (L : line) (k : kern) (nbins : Z)
    (dr2 dens ppos pvel temp smooth : R) (tau : list R) : option (list R) :=
  let btherm := bfac L * sqrt temp in
  let skip := match k with
    | Voronoi => if Rlt_dec (2 * vbox L / velfac L) dr2 then true
                 else if Rlt_dec (2 * vbox L / velfac L) smooth then true else false
    | _ => if Rle_dec (smooth * smooth - dr2) 0 then true else false
    end in
  if skip then Some tau
  else
    let pos1 := match k with Voronoi => (dr2 + smooth) / 2 | _ => ppos end in
    let vel := velfac L * pos1 + pvel in
    let val1 := match k with Voronoi => velfac L * dr2 | _ => velfac L * dr2 * velfac L end in
    let bintov := vbox L / IZR nbins in
    let amp := sigma_a L / sqrt PI * (light_kms / btherm) in
    let zmax := Zfloor (vel / bintov) in
    let value := fun z =>
      let vlow := IZR z * bintov - vel in
      amp * dens * tau_kern_outer k btherm val1 (velfac L * smooth) (voigt_fac L / btherm)
                     vlow (vlow + bintov) / velfac L in
    let half := Z.to_nat (Z.quot nbins 2) in
    match tau_loop nbins (tautail L) value (zrange_up zmax half) tau with
    | None => None
    | Some tau' => tau_loop nbins (tautail L) value (zrange_down (zmax - 1) half) tau'
    end.

End Tau.
