(** Model of the lower cut-off of the line widths: voigtfit.get_b_param_dist, fake_spectra/voigtfit.py:320-396.

    Floats are real numbers; a mean or spread of no values is NaN and compares false.  The fitted systems are given
    (with close=-1 nothing is merged and there is one width per column density), as is optimize.minimize: [fit x l] is the
    minimum found for the points l starting from x.  argsort is a stable sort (the code's leaves the order of equal
    column densities open).  A boolean array over the points is the function giving its value at each point. *)
From Coq Require Import List Reals Arith Bool.
From Verif Require Import AbsorptionSpec SnapshotModel FilterModel FitModel.
Import ListNotations.
Local Open Scope R_scope.

(** The logarithms of column density and width of one system. *)
Definition pt : Type := R * R.

(** np.log10. *)
Definition lg (x : R) : R := ln x / ln 10.

(** voigtfit.py:335 *)
Definition in_use (s : R * R) : bool :=
  let '(n, b) := s in rltb 8 b && rltb b 100 && rltb n (Rpower 10 14.5) && rltb (Rpower 10 12.5) n.

(** voigtfit.py:336-338 *)
Fixpoint insert_pt (p : pt) (l : list pt) : list pt :=
  match l with
  | [] => [p]
  | q :: t => if Rle_dec (fst p) (fst q) then p :: l else q :: insert_pt p t
  end.
(** voigtfit.py:336-338, with the definition above. *)
Definition sorted_points (obs : list (R * R)) : list pt :=
  fold_right insert_pt [] (map (fun s => (lg (fst s), lg (snd s))) (filter in_use obs)).

(** voigtfit.py:346, 348: the points of bin i, and those with b below 40 among them. *)
Definition bin_low (i : nat) : R := 12.5 + INR i * 0.25.
(** voigtfit.py:346, 348, with the definition above. *)
Definition in_bin (i : nat) (p : pt) : bool := rleb (bin_low i) (fst p) && rltb (fst p) (12.5 + (INR i + 1) * 0.25).
(** voigtfit.py:346, 348, with the definition above. *)
Definition bin_range (i : nat) (p : pt) : bool := in_bin i p && rltb (Rpower 10 (snd p)) 40.

(** voigtfit.py:351-357: one round of the rejection: the new bin_range and n_removed. *)
Definition sigma_round (pts : list pt) (m : pt -> bool) : (pt -> bool) * nat :=
  let sel := map snd (filter m pts) in
  match sel with
  | [] => (fun _ => false, 0%nat)
  | _ =>
      let mean := rsum sel / INR (length sel) in
      let dev := sqrt (rsum (map (fun x => (x - mean) ^ 2) sel) / INR (length sel)) in
      let m' := fun p => m p && rltb (Rabs (snd p - mean)) (2 * dev) in
      (m', (length sel - length (filter m' pts))%nat)
  end.

(** voigtfit.py:349-357; [None]: still running. *)
Fixpoint reject (fuel : nat) (pts : list pt) (m : pt -> bool) : option (pt -> bool) :=
  let '(m', removed) := sigma_round pts m in
  match removed with
  | O => Some m'
  | _ => match fuel with O => None | S fuel' => reject fuel' pts m' end
  end.

(** voigtfit.py:346-361: one bin.  Line 360 changes nothing, "bin_range is False" being false for an array.  Line 361 raises an
    IndexError if the bin has no points. *)
Definition retained_bin (fuel : nat) (pts : list pt) (i : nat) : outcome (list bool) :=
  match reject fuel pts (bin_range i) with
  | None => Running
  | Some m =>
      let edges := filter (fun k => in_bin i (nth k pts (0, 0))) (seq 0 (length pts)) in
      match edges with
      | [] => Raises
      | first :: _ => Done (map m (slice first (last edges 0%nat + 1) pts))
      end
  end.

(** voigtfit.py:345-361 *)
Fixpoint all_bins (fuel : nat) (pts : list pt) (bins : list nat) (final_retained : list bool) : outcome (list bool) :=
  match bins with
  | [] => Done final_retained
  | i :: bins' =>
      match retained_bin fuel pts i with
      | Done m => all_bins fuel pts bins' (final_retained ++ m)
      | Raises => Raises
      | Running => Running
      end
  end.

(** voigtfit.py:363-364: indexing with a boolean array, which must have the right length. *)
Fixpoint select (mask : list bool) (pts : list pt) : option (list pt) :=
  match mask, pts with
  | [], [] => Some []
  | b :: mask', p :: pts' => match select mask' pts' with Some r => Some (if b then p :: r else r) | None => None end
  | _, _ => None
  end.

(** voigtfit.py:320-322, 377: the residual of a point from the power law x. *)
Definition power_fit (x : R * R) (l : R) : R := fst x + snd x * (l - 13.6).
(** voigtfit.py:320-322, 377, with the definition above. *)
Definition residual (x : R * R) (p : pt) : R := snd p - power_fit x (fst p).

(** voigtfit.py:378, 388: np.sum(abs(np.mean(residuals) - residuals))/residuals.size; [None] is NaN. *)
Definition sigma_fit (x : R * R) (pts : list pt) : option R :=
  match pts with
  | [] => None
  | _ =>
      let r := map (residual x) pts in
      let mean := rsum r / INR (length r) in
      Some (rsum (map (fun y => Rabs (mean - y)) r) / INR (length r))
  end.

Section Fit.
Variable fit : R * R -> list pt -> R * R.

(** voigtfit.py:373-385: the loop; returns result and the remaining points.  newresult is computed once more at 385 but not
    used after the loop. *)
Fixpoint cut_above (fuel : nat) (discarded : nat) (result newresult : R * R) (pts : list pt) : option ((R * R) * list pt) :=
  match discarded with
  | O => Some (result, pts)
  | _ =>
      match fuel with
      | O => None
      | S fuel' =>
          let result := newresult in
          let used := match sigma_fit result pts with
                      | None => []
                      | Some sigma => filter (fun p => rleb (residual result p) sigma) pts
                      end in
          cut_above fuel' (length pts - length used)%nat result (fit result used) used
      end
  end.

(** voigtfit.py:387-396 *)
Definition cut_below (result : R * R) (pts : list pt) : R * R :=
  let used := match sigma_fit result pts with
              | None => []
              | Some sigma => filter (fun p => rltb (-1 * sigma) (residual result p)) pts
              end in
  let newresult := fit result used in
  (Rpower 10 (fst newresult), snd newresult).

(** voigtfit.py:331-396; [obs]: column density and width of every fitted system. *)
Definition get_b_param_dist (fuel : nat) (obs : list (R * R)) : outcome (R * R) :=
  let pts := sorted_points obs in
  match all_bins fuel pts (seq 0 8) [] with
  | Done mask =>
      match select mask pts with
      | None => Raises
      | Some kept =>
          let start := (lg 18, 0.17) in
          let newresult := fit start kept in
          match cut_above fuel (length obs - length pts)%nat start newresult kept with
          | None => Running
          | Some (result, rest) => Done (cut_below result rest)
          end
      end
  | Raises => Raises
  | Running => Running
  end.

End Fit.
