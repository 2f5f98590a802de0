(** Model of the plots of single sightlines: fake_spectra/plot_spectra.py:33-119 (plot_spectrum, plot_spectrum_raw, plot_density,
    plot_den_to_tau), with the cached velocity of fake_spectra/spectra.py:983-992.

    A plot is the list of its points.  Floats are real numbers; line styles, labels and the limits of the axes other than those
    computed are left out.  The optical depths and densities are arguments. *)
From Coq Require Import ZArith List Reals.
From Flocq Require Import Core.Raux.
From Verif Require Import IndexModel FilterModel.
Import ListNotations.
Local Open Scope R_scope.

(** np.roll of a one dimensional array: plot_spectra.py:43, 73. *)
Definition roll (l : list R) (k : Z) : list R :=
  map (fun i => nth (Z.to_nat ((Z.of_nat i - k) mod Z.of_nat (length l))) l 0) (seq 0 (length l)).

(** int(np.size(tau)/2): plot_spectra.py:42, 73. *)
Definition half (n : nat) : nat := Nat.div n 2.

(** plot_spectrum, plot_spectra.py:33-46, with plot_spectrum_raw, 48-66: the returned peak and the points drawn.
    [None]: np.max of an empty array raises. *)
Definition plot_spectrum (dvbin : R) (tau : list R) (flux : bool) (offset : R) : option (nat * list (R * R)) :=
  match argmax tau with
  | None => None
  | Some (peak, _) =>
      let szt := half (length tau) in
      let tau_l := roll tau (Z.of_nat szt - Z.of_nat peak + Ztrunc (offset * dvbin))%Z in
      let xaxis := map (fun i => (INR i - INR szt) * dvbin) (seq 0 (length tau)) in
      Some (peak, combine xaxis (if flux then map (fun t => exp (- t)) tau_l else tau_l))
  end.

(** The first and the last element satisfying a condition: ind[0][0] and ind[0][-1], plot_spectra.py:80-82. *)
Definition above (thresh : R) (l : list R) : list nat :=
  filter (fun i => if Rlt_dec thresh (nth i l 0) then true else false) (seq 0 (length l)).

(** plot_density, plot_spectra.py:68-86, for the density of one sightline: the points drawn and the returned dxlim. *)
Definition plot_density (dvbin velfac : R) (den : list R) (thresh : R) : option (list (R * R) * R) :=
  match argmax den with
  | None => None
  | Some (ind_m, _) =>
      let n := length den in
      let rolled := roll den (Z.of_nat (half n) - Z.of_nat ind_m)%Z in
      let phys := dvbin / velfac in
      let points := combine (map (fun i => INR i * phys - INR n / 2 * phys) (seq 0 n)) (map (fun d => d + / 10 ^ 30) rolled) in
      let ind := above thresh rolled in
      let dxlim := match ind with
                   | [] => INR n * phys
                   | i :: _ => Rmax (Rabs (INR i * phys - INR n / 2 * phys - 50))
                                    (Rabs (INR (last ind i) * phys - INR n / 2 * phys + 50))
                   end in
      Some (points, dxlim)
  end.

(** numpy's assignment to selected elements, c[np.where(sel)] = vals, plot_spectra.py:110-111: one value is repeated, otherwise
    there must be as many values as elements selected ([None]: ValueError). *)
Fixpoint put (c : list R) (sel : list bool) (vals : list R) : list R :=
  match c, sel with
  | x :: c', true :: sel' => match vals with v :: vals' => v :: put c' sel' vals' | [] => x :: put c' sel' [] end
  | x :: c', false :: sel' => x :: put c' sel' vals
  | _, _ => c
  end.
(** plot_spectra.py:110-111, with the definition above. *)
Definition assign (c : list R) (sel : list bool) (vals : list R) : option (list R) :=
  let k := length (filter (fun b => b) sel) in
  match vals with
  | [v] => Some (put c sel (repeat v k))
  | _ => if Nat.eqb k (length vals) then Some (put c sel vals) else None
  end.

(** np.linspace(a, b, 10), plot_spectra.py:97, 113-114. *)
Definition linspace10 (a b : R) : list R := map (fun i => a + INR i * ((b - a) / 9)) (seq 0 10).

(** The cached velocity: sightline, pixel, direction; spectra.py:983-992. *)
Definition velocities := list (list (list R)).

(** A component along one sightline, get_velocity(elem, ion)[num, :, ax], plot_spectra.py:104. *)
Definition component (v : velocities) (num ax : nat) : list R := map (fun p => nth ax p 0) (nth num v []).

(** What the call does: it draws lines or raises. *)
Inductive drawing := Lines (l : list (list (R * R))) | Error.

(** plot_den_to_tau, plot_spectra.py:88-119, for the density [den] of sightline [num] in direction [axis] (counted from one).
    The slice of line 104 is a view of the cached array, so that line 106 changes the cache.
    [nbins]: self.nbins.  The result: what is drawn, and the cached velocity afterwards. *)
Definition plot_den_to_tau (dvbin : R) (nbins : nat) (den : list R) (num axis : nat) (thresh voff xscale : R) (v : velocities)
  : drawing * velocities :=
  match argmax den with
  | None => (Error, v)
  | Some (imax, _) =>
      let ind := above thresh den in
      let ax := (axis - 1)%nat in
      let shift := nth imax (component v num ax) 0 - voff in
      let v' := update_nth num (map (update_nth ax (fun x => x - shift))) v in
      let vel := component v' num ax in
      let coord := map (fun i => (INR i - INR imax) * dvbin) ind in
      match assign coord (map (fun x => if Rlt_dec (INR nbins / 2) x then true else false) coord) (map (fun x => x - INR nbins) coord) with
      | None => (Error, v')
      | Some coord1 =>
          match assign coord1 (map (fun x => if Rlt_dec x (- (INR nbins / 2)) then true else false) coord1) (map (fun x => x + INR nbins) coord1) with
          | None => (Error, v')
          | Some coord2 =>
              (Lines (map (fun ci => combine (linspace10 (fst ci / xscale) (fst ci + nth (snd ci) vel 0)) (linspace10 0 1)) (combine coord2 ind)), v')
          end
      end
  end.

(** A sequence of such plots of one ion; every call gives its sightline, that sightline's densities and direction. *)
Record call := mkCall { c_num : nat; c_axis : nat; c_den : list R; c_thresh : R; c_voff : R }.
(** The calls one after the other. *)
Fixpoint plots (dvbin : R) (nbins : nat) (cs : list call) (v : velocities) : velocities :=
  match cs with
  | [] => v
  | c :: cs' => plots dvbin nbins cs' (snd (plot_den_to_tau dvbin nbins (c_den c) (c_num c) (c_axis c) (c_thresh c) (c_voff c) 1 v))
  end.
