(** Model of the Voigt profile fitter, class Profiles of fake_spectra/voigtfit.py:17-247: the search for peaks,
    the re-fit of all peaks and the numbers reported.

    Floats are real numbers.  An exception (AssertionError, IndexError, ValueError) is [None], or [Raises] of a
    loop.  The minimisers of scipy.optimize and the Voigt function are arguments.  Only the default profile, Voigt, is
    modelled, and one do_fit per object. *)
From Coq Require Import ZArith List Reals Arith Bool.
From Flocq Require Import Core.Raux Core.Generic_fmt Core.Round_NE.
From Verif Require Import AbsorptionSpec FilterModel.
Import ListNotations.
Local Open Scope R_scope.

(** A component: width, position and height; self.stddev, self.means, self.amplitudes hold one of each. *)
Record comp := mkComp { c_width : R; c_mean : R; c_amp : R }.

(** A result of optimize.minimize: fun, success and x. *)
Record found := mkFound { r_fun : R; r_ok : bool; r_x : list R }.

(** np.roll *)
Definition roll (k : Z) (l : list R) : list R :=
  map (fun i => nth (Z.to_nat ((Z.of_nat i - k) mod Z.of_nat (length l))) l 0) (seq 0 (length l)).

(** np.where(...)[0] of a condition on the elements. *)
Definition where_ (c : R -> bool) (l : list R) : list nat :=
  filter (fun i => c (nth i l 0)) (seq 0 (length l)).

(** np.sum of an array of arrays along the first axis; of none it is the scalar 0, used like an array of zeros. *)
Definition sum_arrays (n : nat) (ls : list (list R)) : list R :=
  map (fun i => rsum (map (fun l => nth i l 0) ls)) (seq 0 n).

(** A list comprehension whose elements may raise. *)
Fixpoint all_of {A} (l : list (option A)) : option (list A) :=
  match l with
  | [] => Some []
  | None :: _ => None
  | Some a :: t => match all_of t with Some r => Some (a :: r) | None => None end
  end.

(** Comparison of numbers. *)
Definition rltb (a b : R) : bool := if Rlt_dec a b then true else false.
(** Comparison of numbers. *)
Definition rleb (a b : R) : bool := if Rle_dec a b then true else false.

Section Profiles.

(** The pixel size, and the Voigt function normalised to 1 at its maximum as a function of the width and of the
    distance from the maximum in pixels, voigtfit.py:187-194: real(wofz(T0)) / real(wofz(aa)). *)
Variable dvbin : R.
Variable voigt : R -> Z -> R.

(** voigt_profile, voigtfit.py:182-186: the pixel of the maximum. *)
Definition peak_pixel (n : nat) (mean : R) : Z :=
  let peak_index := mean / dvbin in
  let peak_index := if Rlt_dec peak_index 0 then peak_index + (INR n - 1) else peak_index in
  (ZnearestE peak_index mod Z.of_nat n)%Z.

(** voigt_profile, voigtfit.py:166-197. *)
Definition voigt_profile (n : nat) (stddev mean amplitude : R) : option (list R) :=
  let pk := peak_pixel n mean in
  let midpt := (n / 2)%nat in
  let rolled := map (fun i => voigt (Rabs stddev) (Z.of_nat i - Z.of_nat midpt) * Rabs amplitude) (seq 0 n) in
  match argmax rolled with
  | None => None
  | Some (m, _) =>
      let profile := roll (pk - Z.of_nat m) rolled in
      match argmax profile with
      | Some (m', _) => if (Z.of_nat m' =? pk)%Z then Some profile else None
      | None => None
      end
  end.

(** profile_multiple, voigtfit.py:151-154. *)
Definition profile_multiple (n : nat) (cs : list comp) : option (list R) :=
  match all_of (map (fun c => voigt_profile n (c_width c) (c_mean c) (c_amp c)) cs) with
  | Some ps => Some (sum_arrays n ps)
  | None => None
  end.

(** fun_min, voigtfit.py:134-141: the minima between the peak and the edges.  np.where gives the index into [ind], one
    less than the index of the pixel; -1 is the last pixel. *)
Definition minima (tau : list R) : list Z :=
  let n := length tau in
  let at_ (i : nat) := nth i tau 0 in
  map Z.of_nat (filter (fun i => rleb (at_ (S i)) (at_ (S (S i))) && rleb (at_ (S i)) (at_ i)) (seq 0 (n - 2))) ++
  (if rltb (at_ (n - 1)%nat) (at_ (n - 2)%nat) && rltb (at_ (n - 1)%nat) (at_ 0%nat) then [(-1)%Z] else []) ++
  (if rltb (at_ 0%nat) (at_ (n - 1)%nat) && rltb (at_ 0%nat) (at_ 1%nat) then [0%Z] else []).

(** Element of an array with a possibly negative index. *)
Definition py_nth (l : list R) (i : Z) : R := nth (Z.to_nat (if (i <? 0)%Z then i + Z.of_nat (length l) else i)) l 0.

(** fun_min, voigtfit.py:123-149; [None]: an assertion fails, or, for a single pixel, tau[-2] is out of bounds. *)
Definition fun_min (stddev amplitude : R) (tau : list R) : option R :=
  let n := length tau in
  let midpt := (n / 2)%nat in
  if Nat.ltb n 2 then None else
  if Req_EM_T (nth midpt tau 0) amplitude then
    match voigt_profile n stddev (INR midpt * dvbin) amplitude with
    | None => None
    | Some gauss =>
        match argmax gauss with
        | None => None
        | Some (m, _) =>
            if Nat.eqb m midpt then
              match minima tau with
              | [] => None
              | mins =>
                  let mins := filter (fun i => rltb (ln (1 / 0.92)) (Rabs (amplitude - py_nth tau i))) mins in
                  let minn := fold_right Z.max 0%Z (filter (fun i => (i <? Z.of_nat midpt)%Z) mins) in
                  let maxx := fold_right Z.min (Z.of_nat n) (filter (fun i => (Z.of_nat midpt <? i)%Z) mins) in
                  if (minn <? Z.of_nat midpt)%Z && (Z.of_nat midpt <? maxx)%Z then
                    Some (rsum (map (fun i => (exp (- nth i tau 0) - exp (- nth i gauss 0)) ^ 2)
                           (seq (Z.to_nat minn) (Z.to_nat maxx - Z.to_nat minn))))
                  else None
              end
            else None
        end
    end
  else None.

(** optimize.minimize_scalar with method 'bounded'. *)
Variable bounded : (R -> option R) -> option R.

(** np.max(f[mask]) for a mask that is not empty. *)
Definition max_masked (f : list R) (mask : list nat) : option R :=
  match argmax (map (fun i => nth i f 0) mask) with Some (_, v) => Some v | None => None end.

(** iterate_new_spectrum, voigtfit.py:101-121: the new spectrum and the component. *)
Definition iterate_new_spectrum (f : list R) (mask : list nat) : option (list R * comp) :=
  match max_masked f mask with
  | None => None
  | Some v =>
      match where_ (fun x => if Req_EM_T x v then true else false) f with
      | [] => None
      | peak_index :: _ =>
          let mean := INR peak_index * dvbin in
          let amplitude := nth peak_index f 0 in
          let midpt := (length f / 2)%nat in
          let f_rolled := roll (Z.of_nat midpt - Z.of_nat peak_index) f in
          match bounded (fun w => fun_min w amplitude f_rolled) with
          | None => None
          | Some w =>
              match voigt_profile (length f) w mean amplitude with
              | None => None
              | Some fitted =>
                  match argmax fitted, argmax f with
                  | Some (m, _), Some (_, oldmax) =>
                      if Nat.eqb m peak_index then
                        let newf := map (fun p => fst p - snd p) (combine f fitted) in
                        match argmax newf with
                        | Some (_, newmax) => if Rlt_dec newmax oldmax then Some (newf, mkComp w mean amplitude) else None
                        | None => None
                        end
                      else None
                  | _, _ => None
                  end
              end
          end
      end
  end.

(** do_fit, voigtfit.py:64-70: the search for peaks.  [cs]: the components so far. *)
Fixpoint find_peaks (fuel : nat) (realtol sattau : R) (f : list R) (mask : list nat) (cs : list comp) : outcome (list comp) :=
  match max_masked f mask with
  | None => Done cs
  | Some v =>
      if Rlt_dec realtol v then
        match fuel with
        | O => Running
        | S fuel' =>
            match iterate_new_spectrum f mask with
            | None => Raises
            | Some (f', c) =>
                let cs' := cs ++ [c] in
                match profile_multiple (length f) cs' with
                | None => Raises
                | Some fit => find_peaks fuel' realtol sattau f' (where_ (fun x => rltb x sattau) fit) cs'
                end
            end
        end
      else Done cs
  end.

(** do_fit, voigtfit.py:57-62. *)
Definition real_tol (tol : R) (tau : list R) : option R :=
  match argmax tau with Some (_, v) => Some (tol * Rmax 1 v) | None => None end.
(** voigtfit.py:57-62, with the definition above. *)
Definition search (fuel : nat) (tol sattau : R) (tau : list R) : outcome (list comp) :=
  match real_tol tol tau with
  | None => Raises
  | Some realtol => find_peaks fuel realtol sattau tau (where_ (fun x => rltb (-1) x) tau) []
  end.

(** optimize.minimize with method 'Nelder-Mead' of fun_min_multiple, voigtfit.py:156-164, from a starting point.  The
    result depends on the objective function, which depends on the spectrum only. *)
Variable simplex : list R -> option found.

(** voigtfit.py:72, 79: the starting point built from the first k peaks. *)
Definition inputs (k : nat) (cs : list comp) : list R :=
  map c_width (firstn k cs) ++ map c_mean (firstn k cs) ++ map c_amp (firstn k cs).

(** voigtfit.py:82: new_result.fun/prior_result > signif, for numpy floats: x/0 is infinite or, for x = 0, NaN, which
    compares false. *)
Definition ratio_above (new prior signif : R) : bool :=
  if Req_EM_T prior 0 then rltb 0 new else rltb signif (new / prior).

(** do_fit, voigtfit.py:78-93: the loop over the number of peaks. *)
Fixpoint refit_loop (rounds maxpk : nat) (signif : R) (cs : list comp) (total : nat) (result : found) (prior : R) : option (nat * found) :=
  match rounds with
  | O => Some (total, result)
  | S rounds' =>
      match simplex (inputs maxpk cs) with
      | None => None
      | Some new =>
          if ratio_above (r_fun new) prior signif then Some ((maxpk - 1)%nat, result)
          else if r_ok new then refit_loop rounds' (S maxpk) signif cs maxpk new (r_fun result)
          else Some (maxpk, new)
      end
  end.

(** do_fit, voigtfit.py:72-94: the number of components kept and the result of their minimisation. *)
Definition refit (signif : R) (cs : list comp) : option (nat * found) :=
  match simplex (inputs 2 cs) with
  | None => None
  | Some result =>
      match refit_loop (length cs - 2) 3 signif cs (Nat.min 2 (length cs)) result (r_fun result * 2) with
      | None => None
      | Some (total, res) => if Nat.eqb (length (r_x res)) (total * 3) then Some (total, res) else None
      end
  end.

(** x % w *)
Definition rmod (x w : R) : R := x - w * IZR (Zfloor (x / w)).

(** do_fit, voigtfit.py:95-97: stddev_new, means_new and amplitudes_new; np.max(self.wavelengths) is (n - 1) * dvbin. *)
Definition finish (n : nat) (total : nat) (x : list R) : list comp :=
  map (fun i => mkComp (Rabs (nth i x 0)) (rmod (nth (total + i) x 0) ((INR n - 1) * dvbin)) (nth (2 * total + i) x 0))
    (seq 0 total).

(** do_fit, voigtfit.py:49-97. *)
Definition do_fit (fuel : nat) (tol signif sattau : R) (tau : list R) : outcome (list comp) :=
  match search fuel tol sattau tau with
  | Done cs =>
      match refit signif cs with
      | Some (total, res) => Done (finish (length tau) total (r_x res))
      | None => Raises
      end
  | Raises => Raises
  | Running => Running
  end.

(** fun_min_multiple, voigtfit.py:156-164. *)
Definition split_inputs (k : nat) (x : list R) : list comp :=
  map (fun i => mkComp (nth i x 0) (nth (k + i) x 0) (nth (2 * k + i) x 0)) (seq 0 k).
(** voigtfit.py:156-164, with the definition above. *)
Definition fun_min_multiple (tau x : list R) : option R :=
  match profile_multiple (length tau) (split_inputs (length x / 3) x) with
  | Some gauss => Some (rsum (map (fun p => (exp (- fst p) - exp (- snd p)) ^ 2) (combine tau gauss)))
  | None => None
  end.

(** get_fitted_profile, voigtfit.py:207-209. *)
Definition get_fitted_profile (n : nat) (cs : list comp) : option (list R) := profile_multiple n cs.

(** get_column_density, voigtfit.py:219-232; [unit]: sqrt(pi)/(light*sigma_a); [fnorm]: real(wofz(i voigt_fac/b)). *)
Definition get_column_density (unit : R) (fnorm : R -> R) (btherm amp : R) : R :=
  amp * (btherm * unit) / fnorm btherm.

(** voigtfit.py:37-40, 228: the factor [unit] of a line with cross section [sigma_a]; self.light is 2.99e5. *)
Definition fit_light : R := 299000.
(** voigtfit.py:37-40, 228, with the definition above. *)
Definition density_unit (sigma_a : R) : R := / fit_light * sqrt PI / sigma_a.

(** get_systems, voigtfit.py:242-247: sorting by position.  The widths are replaced by the sorted ones, positions and
    amplitudes stay as they are.  Returns the sorted column densities and positions (which the merging of
    SystemsModel goes on from) and the new state. *)
Fixpoint insert_at (p : R) (c : R * R) (l : list (R * (R * R))) : list (R * (R * R)) :=
  match l with
  | [] => [(p, c)]
  | d :: t => if Rle_dec p (fst d) then (p, c) :: l else d :: insert_at p c t
  end.
(** voigtfit.py:242-247, with the definition above. *)
Record state := mkState { f_widths : list R; f_means : list R; f_amps : list R }.
(** voigtfit.py:242-247, with the definition above. *)
Definition sort_components (unit : R) (fnorm : R -> R) (s : state) : list (R * (R * R)) :=
  let colden := map (fun p => get_column_density unit fnorm (Rabs (fst p)) (snd p)) (combine (f_widths s) (f_amps s)) in
  fold_right (fun p l => insert_at (fst p) (snd p) l) [] (combine (f_means s) (combine colden (f_widths s))).
(** voigtfit.py:242-247, with the definition above. *)
Definition systems_start (unit : R) (fnorm : R -> R) (s : state) : list R * list R * state :=
  let l := sort_components unit fnorm s in
  (map (fun t => fst (snd t)) l, map fst l, mkState (map (fun t => snd (snd t)) l) (f_means s) (f_amps s)).
(** get_b_params, voigtfit.py:211-213. *)
Definition get_b_params (s : state) : list R := map Rabs (f_widths s).

End Profiles.
