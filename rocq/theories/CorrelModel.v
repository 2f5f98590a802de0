(** Model of the plotted distributions: _plot_2d_contour, _plot_metallicity, plot_ion_corr and the moment of plot_cddf,
    fake_spectra/plot_spectra.py:135-202, plot_Z_vs_mass and _plot_xx_vs_mass, fake_spectra/haloassigned_spectra.py:253-273.

    Floats are real numbers; an exception is [None].  What is modelled is what is handed to matplotlib; labels, limits and
    colours are not modelled. *)
From Coq Require Import ZArith List Reals Bool Arith.
From Verif Require Import AbsorptionSpec FluxModel.
From Verif Require HaloModel CddfModel MetalModel.
Import ListNotations.
Local Open Scope R_scope.

(** np.log10. *)
Definition log10 (x : R) : R := ln x / ln 10.

(** np.histogram2d: the range of one axis; an empty array has the range from 0 to 1, and one of equal numbers is widened by a half
    on both sides. *)
Definition ends (l : list R) : R * R :=
  match MetalModel.min_of l, MetalModel.max_of l with
  | Some lo, Some hi => if Req_EM_T lo hi then (lo - / 2, hi + / 2) else (lo, hi)
  | _, _ => (0, 1)
  end.

(** The edges: np.linspace(lo, hi, n + 1) *)
Definition edges (n : nat) (r : R * R) : list R := map (fun i => fst r + INR i * ((snd r - fst r) / INR n)) (seq 0 (S n)).

(** The bin of a number between the first and the last edge: np.searchsorted(edges, x, side="right") counts the edges up to x, one less on the
    last edge; numpy's bin 0 holds what lies before the first edge. *)
Definition bin_of (es : list R) (x : R) : nat :=
  let k := length (filter (fun e => if Rle_dec e x then true else false) es) in
  (k - 1 - (if Req_EM_T x (last es 0%R) then 1%nat else 0%nat))%nat.

(** The two-dimensional histogram, a row for each bin of x. *)
Definition histogram2d (n : nat) (xs ys : list R) : list R * list R * list (list R) :=
  let ex := edges n (ends xs) in
  let ey := edges n (ends ys) in
  (ex, ey, map (fun i => map (fun j =>
     INR (length (filter (fun p => Nat.eqb (bin_of ex (fst p)) i && Nat.eqb (bin_of ey (snd p)) j) (combine xs ys)))) (seq 0 n)) (seq 0 n)).

(** The test for a number that has no logarithm. *)
Definition not_positive (x : R) : bool := if Rle_dec x 0 then true else false.

(** plot_spectra.py:185-202: positions of the bins, the array and the levels handed to contourf.  A number which is not positive has no
    finite logarithm, and np.histogram2d raises.  The array is transposed: a row for each bin of y. *)
Definition plot_2d_contour (numlos : nat) (n : nat) (ylog xlog : bool) (sample : R) (xvals yvals : list R)
  : option (list R * list R * list (list R) * list R) :=
  if (ylog && existsb not_positive yvals) || (xlog && existsb not_positive xvals) then None else
  let ys := if ylog then map log10 yvals else yvals in
  let xs := if xlog then map log10 xvals else xvals in
  let '(xedges, yedges, H) := histogram2d n xs ys in
  let xbins := CddfModel.centers xedges in
  let ybins := CddfModel.centers yedges in
  Some (if xlog then map (Rpower 10) xbins else xbins, if ylog then map (Rpower 10) ybins else ybins,
        map (fun j => map (fun row => nth j row 0) H) (seq 0 n),
        map (fun c => INR numlos / sample * c) [0.15; 1; 10]).

(** haloassigned_spectra.py:253-264.  [rows]: halo and metallicity of every sightline; [mass h] is sub_mass of halo h. *)
Definition plot_Z_vs_mass (numlos : nat) (mass : Z -> R) (rows : list (Z * MetalModel.quotient)) :=
  let kept := flat_map (fun r => if HaloModel.plot_keeps (fst r) then
                match snd r with
                | MetalModel.Num q => if Rlt_dec (/ 10 ^ 4) q then [(fst r, q)] else []
                | MetalModel.NotFinite => []
                end else []) rows in
  plot_2d_contour numlos 10 true true 40 (map (fun r => mass (fst r) + 0.1) kept) (map snd kept).

(** haloassigned_spectra.py:266-273; [vel]: HaloModel.virial_vel *)
Definition plot_xx_vs_mass (numlos : nat) (vel : Z -> R) (log : bool) (rows : list (Z * R)) :=
  let kept := filter (fun r => HaloModel.plot_keeps (fst r)) rows in
  plot_2d_contour numlos 10 log true 40 (map (fun r => vel (fst r) + 0.1) kept) (map snd kept).

(** np.linspace(a, b, n) for n at least two *)
Definition linspace (a b : R) (n : nat) : list R := map (fun i => a + INR i * ((b - a) / INR (n - 1))) (seq 0 n).

(** The logarithms which are finite; the others (of zero: minus infinity, of negative numbers and NaN: NaN) are in no bin. *)
Definition finite_logs (l : list MetalModel.quotient) : list R :=
  flat_map (fun q => match q with
                     | MetalModel.Num x => if Rlt_dec 0 x then [log10 x] else []
                     | MetalModel.NotFinite => []
                     end) l.

(** plot_spectra.py:148-154; the curve plotted, [None] if nothing is counted (NaN). *)
Definition plot_metallicity (nbins : nat) (met : list MetalModel.quotient) : option (list R * list R) :=
  let bins := linspace (- (3)) 0 nbins in
  match histogram_density (finite_logs met) bins with
  | Some h => Some (CddfModel.centers bins, h)
  | None => None
  end.

(** plot_spectra.py:166-175: [pairs]: metallicity, and that of the ion, of every sightline. *)
Definition plot_ion_corr (nbins : nat) (pairs : list (MetalModel.quotient * MetalModel.quotient)) : option (list R * list R) :=
  let diffs := flat_map (fun p => match p with
                 | (MetalModel.Num m, MetalModel.Num i) =>
                     if Rlt_dec 0 m then if Rlt_dec 0 i then [Rpower 10 (log10 i - log10 m)] else [] else []
                 | _ => []
                 end) pairs in
  let bins := linspace (- (1)) 1 nbins in
  match histogram_density (map log10 diffs) bins with
  | Some h => Some (CddfModel.centers bins, h)
  | None => None
  end.

(** plot_spectra.py:135-140 *)
Definition plot_cddf (dlogN minN maxN dist : R) (discarded : nat) (line : bool) (close dvbin : R) (moment : bool) (rho : list (list R))
  : list R * list R :=
  let '(NHI, f_N) := CddfModel.column_density_function (minN - 1) (maxN + 1) dlogN dist discarded line close dvbin rho in
  (NHI, if moment then map (fun p => fst p * snd p) (combine f_N NHI) else f_N).
