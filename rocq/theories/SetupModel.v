(** Model of the construction of a Spectra object, fake_spectra/spectra.py:85-273: the conversion of lengths to velocities
    and the number and width of the pixels, from a snapshot or from a saved file, and the header of the saved file
    (293-305, 434-499).  Exact real arithmetic. *)
From Coq Require Import Reals ZArith Bool.
Local Open Scope R_scope.

(** The header of the snapshot as read at 182-192; unit_length is UnitLength_in_cm, if present. *)
Record snapshot := Snapshot { box : R; atime : R; hubble : R; omegam : R; omegal : R; unit_length : option R }.

(** unitsystem.py:7, abstractsnapshot.py:102-112: the default, kpc. *)
Definition kpc : R := 3.085678e21.
(** abstractsnapshot.py:102-112, with the definition above. *)
Definition get_units (s : snapshot) : R := match unit_length s with Some u => u | None => kpc end.

(** The part of the object modelled.  The pixel width is None if the division of spectra.py:232 or 235 is by zero (an infinity). *)
Record spectra := Spectra { s_box : R; s_red : R; s_hubble : R; s_omegam : R; s_omegal : R; s_Hz : R;
                            s_vmax : R; s_nbins : Z; s_dvbin : option R }.

(** The Header group of a saved file; Hz may be missing. *)
Record file := File { f_box : R; f_red : R; f_hubble : R; f_omegam : R; f_omegal : R; f_nbins : Z; f_Hz : option R }.

(** spectra.py: ValueError (227), AttributeError (232: self.nbins was never set), OverflowError (int of an infinity, 230),
    AssertionError (238, 241). *)
Inductive result (A : Type) := Done (a : A) | NoWidth | NoNbins | Overflow | PixelWidth | WrongHz.
Arguments Done {A}. Arguments NoWidth {A}. Arguments NoNbins {A}. Arguments Overflow {A}. Arguments PixelWidth {A}.
Arguments WrongHz {A}.

(** int(): truncation toward zero. *)
Definition trunc (x : R) : Z := if Rle_dec 0 x then Int_part x else (- Int_part (- x))%Z.

(** np.isclose(a, b, rtol=rtol), atol being 1e-8. *)
Definition isclose (a b rtol : R) : bool := if Rle_dec (Rabs (a - b)) (1e-8 + rtol * Rabs b) then true else false.

(** spectra.py:212-214: Hz if not given *)
Definition flat_Hz (h m l a : R) : R := 100 * h * sqrt (m / a ^ 3 + l).

(** spectra.py:210, 216 *)
Definition rscale (unit a h : R) : R := unit * a / h.
(** spectra.py:210, 216, with the definition above. *)
Definition velfac (unit a h Hz : R) : R := rscale unit a h * Hz / 3.085678e24.

(** spectra.py:232, 235 *)
Definition width (vmax : R) (nbins : Z) : option R := if Z.eq_dec nbins 0 then None else Some (vmax / (1 * IZR nbins)).

(** A number given by the user counts if it is not zero (spectra.py:197, 240). *)
Definition given (x : option R) : option R :=
  match x with Some v => if Req_EM_T v 0 then None else Some v | None => None end.

(** spectra.py:103-107, 165-232 with reload_file=True.  [units] is the length unit of the units argument. *)
Definition from_snapshot (s : snapshot) (units : option R) (res : option R) (nbins : option Z)
    (use_external_Hz : option R) : result spectra :=
  let unit := match units with Some u => u | None => kpc end in
  let unit := get_units s in
  let Hz := match given use_external_Hz with Some v => v | None => flat_Hz (hubble s) (omegam s) (omegal s) (atime s) end in
  let vmax := box s * velfac unit (atime s) (hubble s) Hz in
  let finish n := Done (Spectra (box s) (1 / atime s - 1) (hubble s) (omegam s) (omegal s) Hz vmax n (width vmax n)) in
  match res, nbins with
  | None, Some n => finish n
  | None, None => NoWidth
  | Some r, None => if Req_EM_T r 0 then Overflow else finish (trunc (vmax / r))
  | Some _, Some _ => NoNbins
  end.

(** spectra.py:295-305 *)
Definition save (s : spectra) : file :=
  File (s_box s) (s_red s) (s_hubble s) (s_omegam s) (s_omegal s) (s_nbins s) (Some (s_Hz s)).

(** spectra.py:103-107, 204-241 with reload_file=False, and 443-453, 495-499.  [units] is the length unit of the units argument: the
    file has none.  The comparison of an infinite width with a number fails. *)
Definition from_file (f : file) (units : option R) (res : option R) (use_external_Hz : option R) : result spectra :=
  let unit := match units with Some u => u | None => kpc end in
  let a := 1 / (1 + f_red f) in
  let Hz := match f_Hz f with Some v => v | None => flat_Hz (f_hubble f) (f_omegam f) (f_omegal f) a end in
  let vmax := f_box f * velfac unit a (f_hubble f) Hz in
  let dvbin := width vmax (f_nbins f) in
  let obj := Spectra (f_box f) (f_red f) (f_hubble f) (f_omegam f) (f_omegal f) Hz vmax (f_nbins f) dvbin in
  let pixel_ok := match res, dvbin with
                  | None, _ => true
                  | Some r, Some d => isclose d r 1e-2
                  | Some _, None => false
                  end in
  let hz_ok := match given use_external_Hz with None => true | Some v => isclose Hz v 1e-4 end in
  if pixel_ok then (if hz_ok then Done obj else WrongHz) else PixelWidth.
