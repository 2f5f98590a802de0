(** Model of fake_spectra/emission.py: distances, magnitudes and the stellar emission along sightlines, over exact reals. *)
From Coq Require Import List Bool Reals String.
Import ListNotations.
Local Open Scope R_scope.

(** ** Distances *)

(** numpy log10. *)
Definition log10 (x : R) : R := ln x / ln 10.

(** numpy logspace(lo, hi, n) (emission.py:138): powers of ten of equally spaced exponents. *)
Definition logspace (lo hi : R) (n : nat) : list R :=
  map (fun i => Rpower 10 (lo + INR i * ((hi - lo) / INR (n - 1)))) (seq 0 n).

(** numpy trapz(y, x) with the ordinates given by a function of the abscissae (emission.py:141). *)
Fixpoint trapz (f : R -> R) (x : list R) : R :=
  match x with
  | a :: ((b :: _) as rest) => (b - a) * (f a + f b) / 2 + trapz f rest
  | _ => 0
  end.

(** emission.py:139 *)
Definition a2H (Omega_M WR WV a : R) : R := a * a * sqrt (Omega_M / a ^ 3 + WR / a ^ 4 + WV).

(** emission.py:119-153: comoving, angular and luminosity distance. *)
Definition calculator (H0 Omega_M zz : R) : R * R * R :=
  let light := 299792.458 in
  let h := H0 / 100 in
  let WR := 4.165e-5 / (h * h) in
  let WV := 1 - Omega_M - WR in
  let az := 1 / (1 + zz) in
  let n := 1000%nat in
  let a := logspace (log10 az) 0 n in
  let DCMR := trapz (fun a => 1 / a2H Omega_M WR WV a) a in
  let DC_Mpc := (light / H0) * DCMR in
  let DA_Mpc := (light / H0) * az * DCMR in
  let DL_Mpc := DA_Mpc / (az * az) in
  (DC_Mpc, DA_Mpc, DL_Mpc).

(** emission.py:28-40 *)
Definition distance (arcsec redshift hubble OmegaM : R) : R :=
  let rad := 2 * PI / 360 / 60 / 60 * arcsec in
  let atime := 1 / (1 + redshift) in
  let DA := snd (fst (calculator (hubble * 100) OmegaM redshift)) in
  let size := DA * rad * 1000 in
  size / (atime / hubble).

(** ** Fluxes *)

(** emission.py:20: the flux of magnitude zero in Jansky; None: a KeyError. *)
Definition bandflux (band : string) : option R :=
  if String.eqb band "U" then Some 1810 else if String.eqb band "B" then Some 4260
  else if String.eqb band "V" then Some 3640 else if String.eqb band "K" then Some 670
  else if String.eqb band "g" then Some 3730 else if String.eqb band "r" then Some 4490
  else if String.eqb band "i" then Some 4760 else if String.eqb band "z" then Some 4810 else None.

(** emission.py:18-21 *)
Definition maginJy (mag : R) (band : string) : option R :=
  match bandflux band with Some f => Some (Rpower 10 (mag / (- (2.5))) * f) | None => None end.

(** emission.py:23-26 *)
Definition apparentflux (DL : R) : R := (10 / (DL * 1e6)) ^ 2.

(** emission.py:48: the column of a band in the photometry. *)
Definition band_column (band : string) : option nat :=
  if String.eqb band "U" then Some 0%nat else if String.eqb band "B" then Some 1%nat
  else if String.eqb band "V" then Some 2%nat else if String.eqb band "K" then Some 3%nat
  else if String.eqb band "g" then Some 4%nat else if String.eqb band "r" then Some 5%nat
  else if String.eqb band "i" then Some 6%nat else if String.eqb band "z" then Some 7%nat else None.

(** What a call returns or raises. *)
Inductive res (A : Type) := Ok (a : A) | KeyErr | TypeErr | ValueErr | IOErr.
Arguments Ok {A}. Arguments KeyErr {A}. Arguments TypeErr {A}. Arguments ValueErr {A}. Arguments IOErr {A}.

Section Stars.
(** Stars with their magnitudes in the eight bands, sightlines, and whether a star is within the given distance of a sightline
    (particles_near_lines, spectra.py:675-685, modelled in IndexModel). *)
Variables (star line : Type) (mags : star -> list R) (near : R -> line -> star -> bool).

(** numpy sum (emission.py:63). *)
Definition total (l : list R) : R := fold_right Rplus 0 l.

(** emission.py:46-64, [stars] being the stars of one segment: first those near any sightline, then for each sightline those
    near it.  The magnitudes are rows of eight numbers. *)
Definition read_stellar_data (stars : list star) (lines : list line) (band : string) (hh : R) : res (list R) :=
  match band_column band, bandflux band with
  | Some k, Some f =>
      let found := filter (fun s => existsb (fun l => near hh l s) lines) stars in
      match found with
      | [] => ValueErr
      | _ => Ok (map (fun l => total (map (fun s => Rpower 10 (nth k (mags s) 0 / (- (2.5))) * f) (filter (near hh l) found))) lines)
      end
  | _, _ => KeyErr
  end.
End Stars.

(** The dictionary stellar: keys band and size of a pixel, values an array of one flux per sightline.  It belongs to the class,
    not to the object (emission.py:44). *)
Definition stellar := list ((string * R) * list R).

(** Looking up a key. *)
Fixpoint find_key (s : stellar) (k : string * R) : option (list R) :=
  match s with
  | [] => None
  | (k', v) :: s' =>
      if String.eqb (fst k) (fst k') then (if Req_EM_T (snd k) (snd k') then Some v else find_key s' k) else find_key s' k
  end.

(** Changing the array of a key in place. *)
Fixpoint set_key (s : stellar) (k : string * R) (v : list R) : stellar :=
  match s with
  | [] => []
  | (k', w) :: s' =>
      if String.eqb (fst k) (fst k') then (if Req_EM_T (snd k) (snd k') then (k', v) :: s' else (k', w) :: set_key s' k v)
      else (k', w) :: set_key s' k v
  end.

(** emission.py:68-89 for sightlines through a box at [redshift].  [on_disc] is what _really_load_array finds in the save file for
    an array of fewer than two numbers (spectra.py:359-374).  When there is no array yet, the loop is over an integer, the number
    of segments: a TypeError. *)
Definition get_emflux (on_disc : string * R -> res (list R)) (band : string) (pixelsz redshift hubble OmegaM : R) (s : stellar)
  : res (list R) * stellar :=
  let k := (band, distance pixelsz redshift hubble OmegaM) in
  let DL := snd (calculator (hubble * 100) OmegaM redshift) in
  match find_key s k with
  | None => (TypeErr, s)
  | Some v =>
      match (if Nat.ltb 1 (List.length v) then Ok v else on_disc k) with
      | Ok e => let out := map (fun x => x * apparentflux DL) e in (Ok out, set_key s k out)
      | KeyErr => (TypeErr, s)
      | r => (r, s)
      end
  end.
