(** Model of the Voigt fit of many spectra: voigtfit.get_voigt_systems and get_voigt_fit_params, fake_spectra/voigtfit.py:277-319, with
    multiprocessing.Pool.map below it and Profiles.get_systems (238-274) on real numbers.

    Floats are real numbers, an exception is [None] or [Raises].  The fit of one spectrum (Profiles.do_fit, see FitModel) is an
    argument.  Times and printing are left out, but not the maximum that is printed (296). *)
From Coq Require Import ZArith List Reals Arith Bool.
From Verif Require Import AbsorptionSpec FilterModel FitModel SystemsModel.
Import ListNotations.
Local Open Scope R_scope.

(** ** multiprocessing.Pool.map (CPython's multiprocessing/pool.py) *)
Section Pool.
Context {A B : Type} (f : A -> option B).

(** Pool._map_async: chunksize, extra = divmod(len(iterable), len(pool) * 4); if extra: chunksize += 1 *)
Definition chunksize (workers n : nat) : nat :=
  if Nat.eqb (n mod (workers * 4)) 0 then n / (workers * 4) else S (n / (workers * 4)).

(** Pool._get_tasks: the iterable in pieces. *)
Fixpoint get_tasks (fuel c : nat) (xs : list A) : list (list A) :=
  match fuel, xs with
  | S fuel', _ :: _ => firstn c xs :: get_tasks fuel' c (skipn c xs)
  | _, _ => []
  end.

(** mapstar: one piece, in one worker process; an exception ends the piece. *)
Definition mapstar (chunk : list A) : option (list B) := all_of (map f chunk).

(** MapResult: _success, _value, _number_left. *)
Record pending := mkPending { success : bool; value : list (option B); number_left : nat }.

(** MapResult._set: the result of piece [i] arrives. *)
Definition arrive (c : nat) (tasks : list (list A)) (st : pending) (i : nat) : pending :=
  let left := (number_left st - 1)%nat in
  match mapstar (nth i tasks []), success st with
  | Some r, true => mkPending true (firstn (i * c) (value st) ++ map Some r ++ skipn (S i * c) (value st)) left
  | Some _, false => mkPending false (value st) left
  | None, _ => mkPending false (value st) left
  end.

(** What the caller of the pool sees. *)
Inductive reply := Waiting | Raised | Returned (l : list (option B)).

(** Pool.map with [workers] processes; [order]: the order in which the results of the pieces arrive. *)
Definition pool_map (workers : nat) (order : list nat) (xs : list A) : reply :=
  let c := chunksize workers (length xs) in
  let tasks := get_tasks (length xs) c xs in
  let st := fold_left (arrive c tasks) order (mkPending true (map (fun _ => None) xs) (length tasks)) in
  if Nat.eqb (number_left st) 0 then (if success st then Returned (value st) else Raised) else Waiting.
End Pool.
Arguments Waiting {B}.
Arguments Raised {B}.
Arguments Returned {B} l.

(** ** Profiles.get_systems *)

(** np.min, and np.argmin of an array which is not empty. *)
Fixpoint rargmin_from (l : list R) (i best : nat) (v : R) : nat * R :=
  match l with
  | [] => (best, v)
  | x :: l' => if Rlt_dec x v then rargmin_from l' (S i) i x else rargmin_from l' (S i) best v
  end.
(** np.argmin with the minimum. *)
Definition rargmin (l : list R) : nat * R := match l with [] => (0%nat, 0) | x :: l' => rargmin_from l' 1 0 x end.

(** The difference of two arrays. *)
Definition rsubtract (a b : list R) : list R := map (fun p => fst p - snd p) (combine a b).

(** voigtfit.py:257-273 *)
Fixpoint merge_loop (fuel : nat) (w close : R) (colden pos maxpos minpos : list R) : FilterModel.outcome (list R * list R) :=
  let distances := rsubtract minpos maxpos in
  let '(minn, least) := rargmin distances in
  if Rlt_dec least close then
    match fuel with
    | O => Running
    | S fuel' =>
        let is_last := Nat.eqb minn (length distances - 1) in
        let dst := if is_last then 0%nat else S minn in
        let pos1 := update pos dst (fun p => if is_last then rmod ((nth minn pos 0 + p + w) / 2) w else (nth minn pos 0 + p) / 2) in
        let colden1 := update colden dst (fun c => c + nth minn colden 0) in
        let colden2 := np_delete colden1 minn in
        let pos2 := np_delete pos1 minn in
        let maxpos2 := np_delete maxpos minn in
        let minpos2 := np_delete minpos minn in
        if Nat.ltb (length pos2) 2 then Done (colden2, pos2)
        else if forallb (fun d => rltb 0 d) (rsubtract minpos2 maxpos2) then merge_loop fuel' w close colden2 pos2 maxpos2 minpos2
        else Raises
    end
  else Done (colden, pos).

(** voigtfit.py:248-274 from the sorted column densities and positions on; [w] is np.max(self.wavelengths).  An empty fit raises an
    IndexError (250). *)
Definition merge (w close : R) (colden pos : list R) : FilterModel.outcome (list R * list R) :=
  match pos with
  | [] => Raises
  | _ =>
      let maxpos := update pos (length pos - 1) (fun p => p - w) in
      let minpos := match pos with [] => [] | x :: t => t ++ [x] end in
      if forallb (fun d => rltb 0 d) (rsubtract minpos maxpos) then merge_loop (length pos) w close colden pos maxpos minpos
      else Raises
  end.

(** ** The spectra *)
Section Spectra.
(** Pixel size; the factor and function of the column densities (FitModel.get_column_density); the fit. *)
Context (dvbin unit : R) (fnorm : R -> R) (fit : list R -> option (list comp)).

(** voigtfit.py:288-298 _SingleProfileHelper.__call__: column densities of the systems and widths of the components.  With [verbose] the
    maximum of the column densities is printed, a ValueError if there are none. *)
Definition helper (verbose : bool) (close : R) (tau : list R) : option (list R * list R) :=
  match fit tau with
  | None => None
  | Some cs =>
      let '(colden, pos, s) := systems_start unit fnorm (mkState (map c_width cs) (map c_mean cs) (map c_amp cs)) in
      match merge ((INR (length tau) - 1) * dvbin) close colden pos with
      | Done (n_this, _) =>
          match n_this, verbose with
          | [], true => None
          | _, _ => Some (n_this, get_b_params s)
          end
      | _ => None
      end
  end.

(** voigtfit.py:304-319 with b_param=True; [None] is an exception, among them zip of no results (311).  [workers] is the number of
    processes and [order] the order in which they finish.  An order that leaves pieces out waits for ever. *)
Inductive answer := Waits | Fails | Gives (n_vals b_params : list R).
(** voigtfit.py:304-319, with the definition above. *)
Definition get_voigt_systems (workers : nat) (order : list nat) (verbose : bool) (close : R) (taus : list (list R)) : answer :=
  match pool_map (helper verbose close) workers order taus with
  | Waiting => Waits
  | Raised => Fails
  | Returned l =>
      match all_of l with
      | None | Some [] => Fails
      | Some rs => Gives (concat (map fst rs)) (concat (map snd rs))
      end
  end.
End Spectra.
