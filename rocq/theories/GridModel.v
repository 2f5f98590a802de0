(** Model of fake_spectra/ratenetworkspectra.py: RateNetworkGas, the neutral fraction and temperature of gas interpolated from
    a table of solutions of the rate network.  Exact real arithmetic: the conversion of the logarithms to 32 bits (61-62) is
    not modelled, nor are NaN (densities and energies are meant to be positive). *)
From Coq Require Import Reals List Bool.
From Verif Require Import RatesModel NeutralModel.
Import ListNotations.
Local Open Scope R_scope.

(** How a call can end: the arrays, ValueError for the maximum of an empty array (72), ValueError of 73, AttributeError of
    _interpolate_2d, an exception of the rate network, AssertionError (ratenetworkspectra.py:123-124). *)
Inductive ending (A : Type) := Done (a : A) | EmptyMax | EnergyRange | OffGrid | NetworkError | Assertion.
Arguments Done {A}. Arguments EmptyMax {A}. Arguments EnergyRange {A}. Arguments OffGrid {A}. Arguments NetworkError {A}.
Arguments Assertion {A}.

(** Comparison of numbers. *)
Definition ltb (x y : R) : bool := if Rlt_dec x y then true else false.
(** Comparison of numbers. *)
Definition leb (x y : R) : bool := if Rle_dec x y then true else false.

(** np.linspace(lo, hi, n) for n > 1 (ratenetworkspectra.py:33-34) *)
Definition linspace (lo hi : R) (n : nat) : list R :=
  map (fun i => lo + INR i * ((hi - lo) / INR (n - 1))) (seq 0 n).

(** np.max and np.min of an array with first element x. *)
Definition amax (x : R) (l : list R) : R := fold_right Rmax x l.
(** np.min. *)
Definition amin (x : R) (l : list R) : R := fold_right Rmin x l.

(** rate_network.py:83-90 get_temp, elementwise after the equilibrium. *)
Fixpoint temps (helium : R) (nh ienergy ne : list R) : option (list R) :=
  match nh, ienergy, ne with
  | h :: nh', u :: ienergy', e :: ne' =>
      match get_temp (e / h) u helium, temps helium nh' ienergy' ne' with
      | Some y, Some ys => Some (y :: ys)
      | _, _ => None
      end
  | _, _, _ => Some []
  end.
(** rate_network.py:83-90, with the definition above. *)
Definition network_temp (n : network) (maxiter : nat) (density ienergy : list R) (helium : R) : outcome (list R) :=
  match get_equilib_ne n maxiter density ienergy helium with
  | Value ne =>
      match temps helium (map (fun d => d * (1 - helium)) density) ienergy ne with
      | Some ts => Value ts
      | None => Raised
      end
  | e => e
  end.

(** ratenetworkspectra.py:39-41: one column of lh0grid or tempgrid per density; an exception of the network is passed on (None). *)
Fixpoint columns (solve : list R -> list R -> outcome (list R)) (dgrid egrid : list R) : option (list (list R)) :=
  match dgrid with
  | [] => Some []
  | d :: rest =>
      match solve (map (fun _ => exp d) egrid) (map exp egrid), columns solve rest egrid with
      | Value f, Some cs => Some (map ln f :: cs)
      | _, _ => None
      end
  end.

(** The state of a RateNetworkGas object after ratenetworkspectra.py:11-41: its network, whether star forming gas is neutral, the ultraviolet
    background of the parent class (None: redshift_coverage is False), the factors of the equation of state, the density
    omegab * rhoc / protonmass of 115-117, the grids and the two tables. *)
Record gasnet := GasNet {
  rates : network; maxit : nat; sfn : bool; background : option uvb; temp_factor : R; gamma_factor : R; mean_density : R;
  densgrid : list R; ienergygrid : list R; lh0grid : list (list R); tempgrid : list (list R) }.

(** ratenetworkspectra.py:11-41.  [maxdens] is PhysDensThresh/0.76.  None is an exception of the network. *)
Definition make (n : network) (mi : nat) (sf : bool) (bg : option uvb) (redshift maxdens tf gf mean : R) : option gasnet :=
  let dmax := if sf then ln maxdens else 5 in
  let dsz := if sf then 500%nat else 1000%nat in
  let dmin := if Rle_dec 1 redshift then -16 else -20 in
  let dg := linspace dmin dmax dsz in
  let eg := linspace 2 21 500 in
  match columns (fun d u => get_neutral_fraction n mi d u 0.24) dg eg,
        columns (fun d u => network_temp n mi d u 0.24) dg eg with
  | Some h, Some t => Some (GasNet n mi sf bg tf gf mean dg eg h t)
  | _, _ => None
  end.

(** ratenetworkspectra.py:114-126 _get_ienergy_rescaled, one particle: (density, ienergy). *)
Definition rescale1 (g : gasnet) (p : R * R) : R :=
  let overden := fst p / mean_density g in
  let u := snd p * temp_factor g in
  if Req_EM_T (gamma_factor g) 1 then u else u * Rpower overden (gamma_factor g - 1).
(** ratenetworkspectra.py:114-126, with the definition above. *)
Definition get_ienergy_rescaled (g : gasnet) (ps : list (R * R)) : option (list (R * R)) :=
  let qs := map (fun p => (fst p, rescale1 g p)) ps in
  if forallb (fun q => ltb 0 (snd q)) qs then Some qs else None.

(** ratenetworkspectra.py:64-68: the clamp of a logarithm of the energy, lo and hi the ends of the grid. *)
Definition clamp (lo hi x : R) : R :=
  let y := if leb hi x then hi * 0.99 else x in
  if leb y lo then lo * 1.01 else y.

(** ratenetworkspectra.py:80: the values are written into the places of the selected particles; the others stay 1 (70). *)
Fixpoint place (mask : list bool) (old vals : list R) : list R :=
  match mask, old, vals with
  | true :: m, _ :: o, v :: vs => v :: place m o vs
  | true :: m, x :: o, [] => x :: place m o []
  | false :: m, x :: o, vs => x :: place m o vs
  | _, _, _ => []
  end.

Section Interpolator.
(** The interpolator of GSL (bicubic, external): the value at a point of the range of the two grids.  gsl_interp2d_eval_e
    refuses a point outside; the race of several threads on its return value is C17, here the refusal is always seen. *)
Variable eval : list R -> list R -> list (list R) -> R -> R -> R.

(** The range check of gsl_interp2d_eval_e. *)
Definition inside (grid : list R) (x : R) : bool :=
  match grid with
  | [] => false
  | a :: rest => leb a x && leb x (last rest a)
  end.

(** py_module.cpp:291-355 *)
Definition interpolate_2d (dg eg : list R) (z : list (list R)) (pts : list (R * R)) : option (list R) :=
  if forallb (fun p => inside dg (fst p) && inside eg (snd p)) pts
  then Some (map (fun p => eval dg eg z (fst p) (snd p)) pts) else None.

(** ratenetworkspectra.py:54-82 _get_interp: the array, the mask of ii2, and the rescaled particles.  [ps] are the densities and the internal
    energies (in 1e10 erg/g) of the segment. *)
Definition get_interp (g : gasnet) (nhi : bool) (ps : list (R * R)) : ending (list R * list bool * list (R * R)) :=
  match get_ienergy_rescaled g ps with
  | None => Assertion
  | Some qs =>
      let emax := amax (hd 0 (ienergygrid g)) (ienergygrid g) in
      let emin := amin (hd 0 (ienergygrid g)) (ienergygrid g) in
      let dmax := amax (hd 0 (densgrid g)) (densgrid g) in
      let logs := map (fun q => (ln (fst q), clamp emin emax (ln (snd q)))) qs in
      let ii := map (fun l => ltb (fst l) dmax) logs in
      let chosen := filter (fun l => ltb (fst l) dmax) logs in
      match map snd chosen with
      | [] => EmptyMax
      | e :: _ =>
          if ltb emax (amax e (map snd chosen)) || ltb (amin e (map snd chosen)) emin then EnergyRange
          else match interpolate_2d (densgrid g) (ienergygrid g) (if nhi then lh0grid g else tempgrid g) chosen with
               | None => OffGrid
               | Some vals => Done (place ii (map (fun _ => 1) qs) (map exp vals),
                                    map (fun l => leb dmax (fst l)) logs, qs)
               end
      end
  end.

(** The entries selected by a mask. *)
Definition take {A} (mask : list bool) (l : list A) : list A := map snd (filter fst (combine mask l)).

(** ratenetworkspectra.py:84-99 get_reproc_HI *)
Definition reproc_HI (g : gasnet) (ps : list (R * R)) : ending (list R) :=
  match get_interp g true ps with
  | Done (out, ii2, qs) =>
      let dense := take ii2 qs in
      match dense with
      | [] => Done out
      | _ =>
          if sfn g then
            match background g with
            | Some b => Done (place ii2 out (map (fun q => neutral_fraction b (fst q) 1e4) dense))
            | None => Done (place ii2 out (map (fun _ => 1) dense))
            end
          else match get_neutral_fraction (rates g) (maxit g) (map fst dense) (map snd dense) 0.24 with
               | Value f => Done (place ii2 out f)
               | _ => NetworkError
               end
      end
  | EmptyMax => EmptyMax | EnergyRange => EnergyRange | OffGrid => OffGrid
  | NetworkError => NetworkError | Assertion => Assertion
  end.

(** ratenetworkspectra.py:43-52 get_temp *)
Definition temp (g : gasnet) (ps : list (R * R)) : ending (list R) :=
  match get_interp g false ps with
  | Done (out, ii2, qs) =>
      let dense := take ii2 qs in
      match dense with
      | [] => Done out
      | _ =>
          if sfn g then Done (place ii2 out (map (fun _ => 1e4) dense))
          else match network_temp (rates g) (maxit g) (map fst dense) (map snd dense) 0.24 with
               | Value f => Done (place ii2 out f)
               | _ => NetworkError
               end
      end
  | EmptyMax => EmptyMax | EnergyRange => EnergyRange | OffGrid => OffGrid
  | NetworkError => NetworkError | Assertion => Assertion
  end.

End Interpolator.
