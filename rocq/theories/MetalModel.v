(** Model of Spectra.get_metallicity (fake_spectra/spectra.py:772-787), get_ion_metallicity (793-799) and eq_width_hist (847-860),
    over exact reals.  The densities and optical depths are arguments: arrays with a row for each sightline. *)
From Coq Require Import Ascii String ZArith List Bool Reals Arith.
From Verif Require Import AbsorptionSpec SightlineModel FluxModel SetupModel.
From Verif Require FilterModel FitModel CddfModel ObserverModel.
Import ListNotations.
Local Open Scope R_scope.

(** An element of a quotient of arrays: a number, or a NaN or infinity for a division by zero. *)
Inductive quotient := Num (x : R) | NotFinite.
(** Division of numpy: by zero it gives no finite number. *)
Definition divide (a b c : R) : quotient := if Req_EM_T b 0 then NotFinite else Num (a / b / c).

(** spectra.py:249 *)
Definition solarz : R := 0.0134 / 0.7381.

(** spectra.py:245 *)
Definition solar : list (string * R) :=
  [("H", 1); ("He", 0.0851); ("C", 2.69e-4); ("N", 6.76e-5); ("O", 4.9e-4); ("Ne", 8.51e-5); ("Mg", 3.98e-5); ("Si", 3.24e-5);
   ("Fe", 3.16e-5)]%string.

(** spec_utils.py:37-43 for real numbers: how far the spectrum is rolled. *)
Definition roll_of (row : list R) : option Z :=
  match FilterModel.argmax row with
  | None => None
  | Some (ind_m, _) => Some (Z.of_nat (length row / 2) - Z.of_nat ind_m)%Z
  end.

(** spectra.py:779-783 for one sightline: the rows of Z and of H. *)
Definition peak_sums (width dvbin : R) (mm hh : list R) : option (R * R) :=
  match roll_of hh with
  | None => None
  | Some r =>
      let imax := (length mm / 2)%nat in
      let wbins := Nat.min (Z.to_nat (trunc (width / dvbin))) imax in
      Some (rsum (py_slice (imax - wbins) (imax + wbins) (FitModel.roll r mm)),
            rsum (py_slice (imax - wbins) (imax + wbins) (FitModel.roll r hh)))
  end.

(** A comprehension whose elements may raise. *)
Fixpoint all_rows (f : list R -> list R -> option quotient) (MM HH : list (list R)) {struct MM} : option (list quotient) :=
  match MM, HH with
  | mm :: MM', hh :: HH' =>
      match f mm hh, all_rows f MM' HH' with Some q, Some qs => Some (q :: qs) | _, _ => None end
  | _, _ => Some []
  end.

(** spectra.py:772-787.  None is the ValueError for spectra without pixels or for no sightline, if there is a width. *)
Definition get_metallicity (width dvbin : R) (MM HH : list (list R)) : option (list quotient) :=
  if Rlt_dec 0 width
  then match HH with
       | [] => None
       | _ => all_rows (fun mm hh => match peak_sums width dvbin mm hh with
                                     | Some (m, h) => Some (divide m h solarz)
                                     | None => None
                                     end) MM HH
       end
  else all_rows (fun mm hh => Some (divide (rsum mm) (rsum hh) solarz)) MM HH.

(** A dictionary lookup; None is a KeyError. *)
Fixpoint look (d : list (string * R)) (k : string) : option R :=
  match d with
  | [] => None
  | (n, v) :: d' => if String.eqb k n then Some v else look d' k
  end.

(** spectra.py:793-799: [MM] are the densities of the ion, [HH] those of neutral hydrogen. *)
Definition get_ion_metallicity (species : string) (MM HH : list (list R)) : option (list quotient) :=
  match look solar species with
  | None => None
  | Some s => all_rows (fun mm hh => Some (divide (rsum mm) (rsum hh) s)) MM HH
  end.

(** np.log10 *)
Definition log10 (x : R) : R := ln x / ln 10.

(** np.min and np.max; None is the ValueError for an empty array. *)
Definition min_of (l : list R) : option R := match l with [] => None | x :: t => Some (fold_left Rmin t x) end.
(** np.max; of an empty array it raises. *)
Definition max_of (l : list R) : option R := match l with [] => None | x :: t => Some (fold_left Rmax t x) end.

(** np.histogram(l, edges, density=True)[0] if something is counted; no bins give an empty array. *)
Definition density (l edges : list R) : option (list R) :=
  match edges with
  | _ :: _ :: _ => histogram_density l edges
  | _ => Some []
  end.

(** spectra.py:847-860 after 855; [eq_width]: the equivalent widths of ObserverModel.equivalent_width, one for each sightline. *)
Definition eq_width_hist (eq_width : list R) (dv : R) : option (list R * list R) :=
  let pos := filter (fun w => if Rlt_dec 0 w then true else false) eq_width in
  match min_of pos, max_of pos with
  | Some lo, Some hi =>
      let v_table := CddfModel.arange (log10 lo) (log10 hi) dv in
      match density (map log10 pos) v_table with
      | Some eqws => Some (CddfModel.centers v_table, eqws)
      | None => None
      end
  | _, _ => None
  end.
