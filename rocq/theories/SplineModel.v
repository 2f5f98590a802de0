(** Model of the adaptive spline fit, fake_spectra/spectra.py:1325-1408 (spline_fit).  Exact real arithmetic.
    Indices of pixels are integers; scipy's LSQUnivariateSpline is a parameter, apart from its check of the knots. *)
From Coq Require Import ZArith List Reals Bool.
Import ListNotations.
Local Open Scope R_scope.

(** What can be raised: 1344-1345; IndexError of vel[1] (1343); ZeroDivisionError of np.arange (1356); IndexError of
    interior_inds[-1] (1359); ValueError of the knots not increasing; any other failure of the fit.  [OutOfFuel] is not
    an outcome of the program. *)
Inductive result (A : Type) := Done (a : A) | Resolution | OnePixel | ZeroSpacing | NoBreak | BadKnots | FitFails | OutOfFuel.
Arguments Done {A}. Arguments Resolution {A}. Arguments OnePixel {A}. Arguments ZeroSpacing {A}. Arguments NoBreak {A}.
Arguments BadKnots {A}. Arguments FitFails {A}. Arguments OutOfFuel {A}.

(** np.round, ties to even, spectra.py:1348. *)
Definition np_round (x : R) : Z :=
  let k := Int_part x in
  if Rlt_dec (x - IZR k) (1 / 2) then k
  else if Rlt_dec (1 / 2) (x - IZR k) then (k + 1)%Z
  else if Z.even k then k else (k + 1)%Z.

(** spectra.py:1396: int(np.round(a/2 + b/2)), exact for indices. *)
Definition middle (a b : Z) : Z :=
  let k := ((a + b) / 2)%Z in
  if Z.even (a + b) then k else if Z.even k then k else (k + 1)%Z.

(** spectra.py:1342-1343: the velocity of a pixel; linspace includes both ends. *)
Definition step_of (vmax : R) (n : Z) : R := vmax / IZR (n - 1).
(** spectra.py:1342-1343, with the definition above. *)
Definition vel (step : R) (i : Z) : R := IZR i * step.

(** np.arange(k, n, k) for k > 0, spectra.py:1356. *)
Definition arange (k n : Z) : list Z := map (fun i => k * (Z.of_nat i + 1))%Z (seq 0 (Z.to_nat ((n - 1) / k))).

(** spectra.py:1356-1360.  A negative spacing gives an empty array. *)
Definition initial (step seg_min : R) (n k : Z) : result (list Z) :=
  if Z.eqb k 0 then ZeroSpacing
  else match (if Z.ltb k 0 then [] else arange k n) with
       | [] => NoBreak
       | x :: l => if Rlt_dec (vel step (n - 1) - vel step (last (x :: l) 0%Z)) seg_min
                   then Done (removelast (x :: l)) else Done (x :: l)
       end.

(** np.sort, spectra.py:1372,1403 *)
Fixpoint insert (x : Z) (l : list Z) : list Z :=
  match l with [] => [x] | y :: l' => if Z.leb x y then x :: l else y :: insert x l' end.
(** spectra.py:1372,1403, with the definition above. *)
Definition sort (l : list Z) : list Z := fold_right insert [] l.

(** spectra.py:1369: with the start and, one past the last pixel, the end. *)
Definition all_inds (n : Z) (interior : list Z) : list Z := 0%Z :: interior ++ [n].

(** Neighbours in the list: the segments, spectra.py:1378. *)
Fixpoint pairs (l : list Z) : list (Z * Z) :=
  match l with a :: ((b :: _) as l') => (a, b) :: pairs l' | _ => [] end.

(** spectra.py:1372: [1:-1] of the sorted array. *)
Definition next_inds (n : Z) (interior : list Z) : list Z :=
  let all := all_inds n interior in
  removelast (tl (sort (all ++ map (fun p => (fst p + snd p) / 2)%Z (pairs all)))).

(** LSQUnivariateSpline requires the interior knots to increase and to be inside the data. *)
Fixpoint increasing (l : list Z) : bool :=
  match l with a :: ((b :: _) as l') => Z.ltb a b && increasing l' | _ => true end.
(** The check of LSQUnivariateSpline. *)
Definition knots_ok (n : Z) (knots : list Z) : bool := increasing (0%Z :: knots ++ [(n - 1)%Z]).

Section Fit.
Variable spline : Type.
(** The fit of this sightline with the given interior knots; None if it fails for any other reason. *)
Variable lsq : list Z -> option spline.
(** The value of the spline at a pixel. *)
Variable at_pixel : spline -> Z -> R.

(** A call of LSQUnivariateSpline. *)
Definition fit (n : Z) (knots : list Z) : result spline :=
  if knots_ok n knots then match lsq knots with Some s => Done s | None => FitFails end else BadKnots.

(** np.sum. *)
Definition rsum (l : list R) : R := fold_right Rplus 0 l.
(** np.mean. *)
Definition mean (l : list R) : R := rsum l / INR (length l).
(** np.std. *)
Definition std (l : list R) : R := sqrt (mean (map (fun x => (x - mean l) ^ 2) l)).

(** The pixels a..b, cut at the end of the array, spectra.py:1380-1384. *)
Definition pixels (n a b : Z) : list Z := map (fun i => a + Z.of_nat i)%Z (seq 0 (Z.to_nat (Z.min b (n - 1) - a + 1))).

(** spectra.py:1337-1339 *)
Definition chi_squared (flux fitted : Z -> R) (px : list Z) : R :=
  rsum (map (fun i => ((flux i - fitted i) / std (map flux px)) ^ 2) px).

(** spectra.py:1387-1394.  A constant segment has no standard deviation: both values are inf or nan, their difference is
    nan and the test fails. *)
Definition improves (n : Z) (chi_min : R) (flux : Z -> R) (cur next : spline) (a b : Z) : bool :=
  let px := pixels n a b in
  if Req_EM_T (std (map flux px)) 0 then false
  else if Rlt_dec chi_min (chi_squared flux (at_pixel cur) px - chi_squared flux (at_pixel next) px) then true else false.

(** spectra.py:1391-1396 for segment number i, between a and b. *)
Definition breakpoint (step seg_min chi_min : R) (n : Z) (flux : Z -> R) (cur next : spline) (nexts : list Z)
    (i : nat) (a b : Z) : list Z :=
  let m := nth (2 * i) nexts 0%Z in
  if improves n chi_min flux cur next a b then
    if Rle_dec seg_min (vel step (Z.min b (n - 1)) - vel step m) then
      if Rle_dec seg_min (vel step m - vel step a) then [middle a b] else []
    else []
  else [].

(** spectra.py:1376-1396 *)
Definition new_breaks (step seg_min chi_min : R) (n : Z) (flux : Z -> R) (cur next : spline) (interior : list Z) : list Z :=
  let segs := pairs (all_inds n interior) in
  concat (map (fun p => breakpoint step seg_min chi_min n flux cur next (next_inds n interior) (fst p) (fst (snd p)) (snd (snd p)))
    (combine (seq 0 (length segs)) segs)).

(** spectra.py:1363-1403: the breakpoints and the last fit with them. *)
Fixpoint refine (fuel : nat) (step seg_min chi_min : R) (n : Z) (flux : Z -> R) (interior : list Z) : result (list Z * spline) :=
  match fuel with
  | O => OutOfFuel
  | S fuel =>
      match fit n interior with
      | Done cur =>
          match fit n (next_inds n interior) with
          | Done next =>
              match new_breaks step seg_min chi_min n flux cur next interior with
              | [] => Done (interior, cur)
              | bp => refine fuel step seg_min chi_min n flux (sort (interior ++ bp))
              end
          | Resolution => Resolution | OnePixel => OnePixel | ZeroSpacing => ZeroSpacing | NoBreak => NoBreak
          | BadKnots => BadKnots | FitFails => FitFails | OutOfFuel => OutOfFuel
          end
      | Resolution => Resolution | OnePixel => OnePixel | ZeroSpacing => ZeroSpacing | NoBreak => NoBreak
      | BadKnots => BadKnots | FitFails => FitFails | OutOfFuel => OutOfFuel
      end
  end.

(** spectra.py:1342-1406 for one sightline: the breakpoints, the spline and its value at each pixel. *)
Definition spline_fit (fuel : nat) (vmax chi_min seg_min ini_break : R) (n : Z) (flux : Z -> R) : result (list Z * spline * list R) :=
  if Z.ltb n 2 then OnePixel
  else
    let step := step_of vmax n in
    if Rle_dec seg_min step then Resolution
    else match initial step seg_min n (np_round (ini_break / step)) with
         | Done ini =>
             match refine fuel step seg_min chi_min n flux ini with
             | Done (br, s) => Done (br, s, map (at_pixel s) (pixels n 0 (n - 1)))
             | Resolution => Resolution | OnePixel => OnePixel | ZeroSpacing => ZeroSpacing | NoBreak => NoBreak
             | BadKnots => BadKnots | FitFails => FitFails | OutOfFuel => OutOfFuel
             end
         | Resolution => Resolution | OnePixel => OnePixel | ZeroSpacing => ZeroSpacing | NoBreak => NoBreak
         | BadKnots => BadKnots | FitFails => FitFails | OutOfFuel => OutOfFuel
         end.
End Fit.
Arguments fit {spline}. Arguments improves {spline}. Arguments breakpoint {spline}. Arguments new_breaks {spline}.
Arguments refine {spline}. Arguments spline_fit {spline}.
