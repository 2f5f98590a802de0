(** Model of fake_spectra/fluxstatistics.py:41-216: flux PDF and flux power spectra.

    Floating point numbers are real numbers.  A result that would be NaN or infinite, or an exception,
    is [None].  numpy's FFT is the discrete Fourier transform by its definition; numpy's histogram
    is modelled by its algorithm for explicit bin edges. *)
From Coq Require Import List Reals Arith.
From Verif Require Import AbsorptionSpec SnapshotModel RescaleModel.
Import ListNotations.
Local Open Scope R_scope.

(** The default tolerance and threshold of mean_flux, fluxstatistics.py:26. *)
Definition default_tol : R := / 100000.
(** fluxstatistics.py:26, with the definition above. *)
Definition default_thresh : R := 10 ^ 30.

(** The common beginning (fluxstatistics.py:43-45, 86-91, 149-155): the factor of the optical depths and the mean
    flux.  [parts], [fuel]: threads and iterations of the rescaling, see [RescaleModel.mean_flux]. *)
Definition scale_and_mean (parts : nat -> list (list R)) (fuel : nat) (tau : list R) (desired : option R)
  : option (R * R) :=
  match desired with
  | Some m => match mean_flux parts tau m default_tol default_thresh fuel with
              | Some (Finite s) => Some (s, m)
              | _ => None
              end
  | None => Some (1, rsum (map (fun t => exp (- t)) tau) / INR (length tau))
  end.

(** ** Flux PDF *)

(** searchsorted(x, 'left') and searchsorted(x, 'right') on the sorted data. *)
Definition count_below (l : list R) (x : R) : R :=
  INR (length (filter (fun f => if Rlt_dec f x then true else false) l)).
(** searchsorted from the right. *)
Definition count_upto (l : list R) (x : R) : R :=
  INR (length (filter (fun f => if Rle_dec f x then true else false) l)).

(** np.diff *)
Fixpoint diff (l : list R) : list R :=
  match l with
  | x :: (y :: _) as l' => (y - x) :: diff l'
  | _ => []
  end.

(** numpy.histogram with explicit edges: differences of the cumulative counts, of which only the
    last includes its edge. *)
Definition histogram (l edges : list R) : list R :=
  diff (map (count_below l) (removelast edges) ++ [count_upto l (last edges 0)]).

(** density=True: n/db/n.sum(); NaN if nothing was counted. *)
Definition histogram_density (l edges : list R) : option (list R) :=
  let n := histogram l edges in
  if Req_EM_T (rsum n) 0 then None
  else Some (map (fun p => fst p / snd p / rsum n) (combine n (diff edges))).

(** fluxstatistics.py:47: np.arange(nbins+1)/(1.*nbins) *)
Definition pdf_bins (nbins : nat) : list R := map (fun i => INR i / (1 * INR nbins)) (seq 0 (nbins + 1)).

(** flux_pdf, fluxstatistics.py:41-50.  nbins = 0 divides by zero. *)
Definition flux_pdf (parts : nat -> list (list R)) (fuel : nat) (tau : list R) (nbins : nat) (desired : option R)
  : option (list R * list R) :=
  match nbins with
  | O => None
  | _ =>
    match (match desired with None => Some (1, 0) | Some _ => scale_and_mean parts fuel tau desired end) with
    | None => None
    | Some (scale, _) =>
        let flux := map (fun t => exp (- scale * t)) tau in
        let bins := pdf_bins nbins in
        match histogram_density flux bins with
        | None => None
        | Some fpdf => Some (map (fun p => (fst p + snd p) / 2) (combine (tl bins) (removelast bins)), fpdf)
        end
    end
  end.

(** ** One dimensional flux power *)

(** Mode k of the discrete Fourier transform: sum of x_j exp(-2 pi i j k / n). *)
Definition dft_re (x : list R) (k : nat) : R :=
  rsum (map (fun j => nth j x 0 * cos (2 * PI * INR j * INR k / INR (length x))) (seq 0 (length x))).
(** The imaginary part. *)
Definition dft_im (x : list R) (k : nat) : R :=
  - rsum (map (fun j => nth j x 0 * sin (2 * PI * INR j * INR k / INR (length x))) (seq 0 (length x))).

(** _powerspectrum, fluxstatistics.py:52-59, on one spectrum: modes 0 .. n//2 of rfft. *)
Definition powerspectrum (x : list R) : list R :=
  map (fun k => (dft_re x k ^ 2 + dft_im x k ^ 2) / INR (length x) ^ 2) (seq 0 (length x / 2 + 1)).

(** np.sinc *)
Definition sinc (x : R) : R := if Req_EM_T x 0 then 1 else sin (PI * x) / (PI * x).

(** _window_function, fluxstatistics.py:61-69. *)
Definition window_function (k res dv : R) : R :=
  let sigma := res / (2 * sqrt (2 * ln 2)) in
  exp (- (1 / 2) * (k * sigma) ^ 2) * sinc (k * dv / 2 / PI).

(** _flux_power_bins, fluxstatistics.py:197-216. *)
Definition flux_power_bins (vmax : R) (npix : nat) : list R :=
  map (fun k => INR k / INR npix * (2 * PI * INR npix / vmax)) (seq 0 (npix / 2 + 1)).

(** tau[i*nspec//nb : min((i+1)*nspec//nb, nspec)], fluxstatistics.py:96-97, 165-175. *)
Definition batch {A : Type} (nb i : nat) (l : list A) : list A :=
  slice (i * length l / nb) (Nat.min ((i + 1) * length l / nb) (length l)) l.

(** Sum over the rows of a two dimensional array with [m] columns (np.sum(axis=0)). *)
Definition sum_rows (m : nat) (rows : list (list R)) : list R :=
  map (fun k => rsum (map (fun r => nth k r 0) rows)) (seq 0 m).

(** Sum of two rows (helper of np.sum). *)
Definition add_lists (a b : list R) : list R := map (fun p => fst p + snd p) (combine a b).

(** exp(-scale*tau)/mean - 1 on one spectrum. *)
Definition flux_contrast (scale mean : R) (row : list R) : list R := map (fun t => exp (- scale * t) / mean - 1) row.

(** flux_power, fluxstatistics.py:71-108, for an array of spectra with [npix] pixels each.  Exceptions and NaN:
    no spectra, no pixels, or a requested mean flux of zero. *)
Definition flux_power (parts : nat -> list (list R)) (fuel : nat) (tau : list (list R)) (npix : nat)
    (vmax spec_res : R) (desired : option R) (window : bool) : option (list R * list R) :=
  match tau, npix with
  | [], _ => None
  | _, O => None
  | _, _ =>
    match scale_and_mean parts fuel (concat tau) desired with
    | None => None
    | Some (scale, mean) =>
        if Req_EM_T mean 0 then None else
        let total := fold_left (fun acc i =>
            let dflux := map (flux_contrast scale mean) (batch 10 i tau) in
            add_lists acc (map (fun s => vmax * s) (sum_rows (npix / 2 + 1) (map powerspectrum dflux))))
          (seq 0 10) (repeat 0 (npix / 2 + 1)%nat) in
        let mean_power := map (fun s => s / INR (length tau)) total in
        let kf := flux_power_bins vmax npix in
        let result :=
          if window then
            if Rlt_dec 0 spec_res
            then map (fun p => fst p / window_function (snd p) spec_res (vmax / INR npix) ^ 2) (combine mean_power kf)
            else mean_power
          else mean_power in
        Some (kf, result)
    end
  end.

(** ** Three dimensional flux power *)

(** fluxstatistics.py:157-163: the position given to every pixel, in the order of the flattened array: the pixel
    index always runs along the third coordinate. *)
Definition coords (nt npix : nat) (boxsize : R) : list (R * R * R) :=
  flat_map (fun a => flat_map (fun b => map (fun p =>
    (INR a * boxsize / INR nt, INR b * boxsize / INR nt, INR p * boxsize / INR npix)) (seq 0 npix)) (seq 0 nt)) (seq 0 nt).

(** los = [0,0,0]; los[i] = 1, fluxstatistics.py:179-180. *)
Definition los_vector (i : nat) : R * R * R :=
  match i with O => (1, 0, 0) | S O => (0, 1, 0) | _ => (0, 0, 1) end.

(** flux_power_3d, fluxstatistics.py:127-195.  [power3d los cat] is the list of binned powers nbodykit computes from
    a catalogue of positions and flux contrasts with the line of sight [los].  (For npix = nt the code
    passes the array instead of a catalogue; the meaning of its indices is the same.)  A block whose
    number of spectra is not nt*nt makes reshape (line 170) or ArrayCatalog (line 175) raise.
    Returns the averaged power and the array tau, which line 152 scales in place. *)
Definition flux_power_3d (power3d : R * R * R -> list (R * R * R * R) -> list R) (parts : nat -> list (list R)) (fuel : nat)
    (tau : list (list R)) (npix : nat) (boxsize : R) (desired : option R) : option (list R * list (list R)) :=
  match scale_and_mean parts fuel (concat tau) desired with
  | None => None
  | Some (scale, mean) =>
      if Req_EM_T mean 0 then None else
      let tau' := match desired with Some _ => map (map (fun t => t * scale)) tau | None => tau end in
      let nt := Nat.sqrt (length tau / 3) in
      let block i := batch 3 i tau' in
      if forallb (fun i => Nat.eqb (length (block i)) (nt * nt)) (seq 0 3) then
        let power i := power3d (los_vector i)
          (combine (coords nt npix boxsize) (concat (map (flux_contrast 1 mean) (block i)))) in
        Some (map (fun s => s / 3) (add_lists (add_lists (power 0%nat) (power 1%nat)) (power 2%nat)), tau')
      else None
  end.
