(** Model of a history of calls for flux statistics on one Spectra object: fake_spectra/spectra.py:881-893 (get_tau),
    836-845 (equivalent_width), 1254-1323 (_filter_tau, get_mean_flux, get_flux_pdf, get_flux_power_1D, get_flux_power_3D),
    1484-1524 (get_curvature), with fake_spectra/fluxstatistics.py:41-195.

    Arrays live in a heap and are handed out by reference: get_tau returns the very array kept in the cache, _filter_tau writes
    into the array it is given, and fluxstatistics.py:152 multiplies it in place.  The numbers computed from an array are those of
    FilterModel, FluxModel, ObserverModel and CurveModel.

    Simplifications: the object has no save file (that side is StoreModel); an exception or an endless loop inside the masking or
    inside the iteration for the factor of the three dimensional power ends the history ([None]). *)
From Coq Require Import ZArith Ascii String List Reals.
From Verif Require Import IndexModel AbsorptionSpec RescaleModel FilterModel FluxModel ObserverModel CurveModel.
Import ListNotations.
Local Open Scope R_scope.

(** A two dimensional array: rows of numbers. *)
Definition matrix := list (list R).

(** (elem, ion, line), the key of self.tau, spectra.py:885-890. *)
Definition key := (string * Z * Z)%type.
(** Equality of keys (helper). *)
Definition key_dec : forall k k' : key, {k = k'} + {k <> k'}.
Proof. intros. repeat decide equality. Defined.

(** The heap of arrays, and self.tau: references by key, spectra.py:884-890. *)
Record state := mkState { heap : list matrix; cache : list (key * nat) }.
(** spectra.py:884-890, with the definition above. *)
Definition new_object : state := mkState [] [].

(** Access to the dictionary self.tau, spectra.py:884-890. *)
Fixpoint lookup (c : list (key * nat)) (k : key) : option nat :=
  match c with [] => None | (k', r) :: c' => if key_dec k k' then Some r else lookup c' k end.

(** np.size, spectra.py:362. *)
Definition size (a : matrix) : nat := length (concat a).

(** What is asked of an optical depth: spectra.py:1272-1276, 1278-1282, 1284-1302, 1304-1323. *)
Inductive stat :=
| MeanFlux
| FluxPdf (nbins : nat) (desired : option R)
| Power1D (desired : option R) (window : bool)
| Power3D (desired : option R).

(** The calls, spectra.py:836-845, 881-893, 1272-1323, 1484-1524.  [Fetch]: get_tau with force_recompute and number. *)
Inductive query :=
| Ask (s : stat) (k : key) (thresh : option R)
| Fetch (force : bool) (k : key) (number : option nat)
| EqWidth (k : key)
| Curvature (k : key) (section_size : R).

(** What the calls return. *)
Inductive result := Number (x : R) | Curve (x y : list R) | Values (x : list R) | Array (a : matrix).

Section Session.
(** compute_spectra(elem, ion, line, True) for the present sightlines. *)
Variable compute : key -> matrix.
(** How threads divide the pixels, and the iterations allowed (RescaleModel); the external power spectrum (FluxModel). *)
Variable parts : list R -> nat -> list (list R).
Variable fuel : nat.
Variable power3d : R * R * R -> list (R * R * R * R) -> list R.
(** self.nbins, vmax, spec_res, box, dvbin, velfac, atime; the speed of light in cm/s. *)
Variable nbins : nat.
Variables vmax spec_res box dvbin velfac atime light : R.

(** A computed array enters the heap and the cache, spectra.py:889-890. *)
Definition computed (k : key) (st : state) : nat * state :=
  (length (heap st), mkState (heap st ++ [compute k]) ((k, length (heap st)) :: cache st)).

(** get_tau, spectra.py:881-893, without number.  [None]: _really_load_array (spectra.py:359-374) tries to read an array of one element from the save file. *)
Definition get_tau (force : bool) (k : key) (st : state) : option (nat * state) :=
  match (if force then None else lookup (cache st) k) with
  | None => Some (computed k st)
  | Some r => if Nat.ltb 1 (size (nth r (heap st) [])) then Some (r, st) else None
  end.

(** Writing into an array: spectra.py:1266, fluxstatistics.py:152. *)
Definition store (r : nat) (a : matrix) (st : state) : state := mkState (update_nth r (fun _ => a) (heap st)) (cache st).

(** The numbers computed from the (masked) array: spectra.py:1275-1276, 1281-1282, 1296-1302, 1318-1323. *)
Definition reply (s : stat) (a : matrix) : option result :=
  match s with
  | MeanFlux => Some (Number (rsum (map (fun t => exp (- t)) (concat a)) / INR (length (concat a))))
  | FluxPdf n desired => option_map (fun p => Curve (fst p) (snd p)) (flux_pdf (parts (concat a)) fuel (concat a) n desired)
  | Power1D desired window =>
      match desired, window, Rlt_dec 0 spec_res with
      | Some _, true, left _ => None
      | _, _, _ => option_map (fun p => Curve (tl (fst p)) (tl (snd p)))
                     (flux_power (parts (concat a)) fuel a nbins vmax spec_res desired window)
      end
  | Power3D desired => option_map (fun p => Values (fst p)) (flux_power_3d power3d (parts (concat a)) fuel a nbins box desired)
  end.

(** fluxstatistics.py:149-152: the array is multiplied by the factor in place, before anything else can raise. *)
Definition rescaled (s : stat) (a : matrix) : option matrix :=
  match s with
  | Power3D (Some m) => match scale_and_mean (parts (concat a)) fuel (concat a) (Some m) with
                        | Some (scale, _) => Some (map (map (fun t => t * scale)) a)
                        | None => None
                        end
  | _ => Some a
  end.

(** One call: the reply ([None]: it raises) and the state after it. *)
Definition exec (q : query) (st : state) : option (option result * state) :=
  match q with
  | Ask s k thresh =>
      match get_tau false k st with
      | None => Some (None, st)
      | Some (r, st1) =>
          match filter_tau fuel (nth r (heap st1) []) thresh with
          | Done a => match rescaled s a with
                      | Some a' => Some (reply s a, store r a' st1)
                      | None => None
                      end
          | _ => None
          end
      end
  | Fetch force k number =>
      match get_tau force k st with
      | None => Some (None, st)
      | Some (r, st1) =>
          let a := nth r (heap st1) [] in
          Some (match number with
                | None => Some (Array a)
                | Some i => option_map Values (nth_error a i)
                end, st1)
      end
  | EqWidth k =>
      match get_tau false k st with
      | None => Some (None, st)
      | Some (r, st1) => Some (Some (Values (equivalent_width dvbin light (IZR (snd k)) (nth r (heap st1) []))), st1)
      end
  | Curvature k section_size =>
      match get_tau false k st with
      | None => Some (None, st)
      | Some (r, st1) =>
          Some (option_map Values (get_curvature parts fuel vmax velfac box atime section_size nbins
                                     (map (map (fun t => exp (- t))) (nth r (heap st1) []))), st1)
      end
  end.

(** A history of calls. *)
Fixpoint session (qs : list query) (st : state) : option (list (option result) * state) :=
  match qs with
  | [] => Some ([], st)
  | q :: qs' =>
      match exec q st with
      | None => None
      | Some (a, st1) => match session qs' st1 with
                         | None => None
                         | Some (l, st2) => Some (a :: l, st2)
                         end
      end
  end.

End Session.
