(** Model of the parallel loop of Py_interpolate_2d, fake_spectra/py_module.cpp:291-355.

    The GSL interpolator is an argument: [eval i] is the interpolated value of particle [i], [None]
    when gsl_interp2d_eval_e returns GSL_EDOM (and leaves its output variable untouched, so that
    results[i] becomes the uninitialised [junk i]).  Building the interpolator and the string
    errstr are not modelled. *)
From Coq Require Import List Bool.
From Verif Require Import IndexModel.
Import ListNotations.

(** Where a thread is inside the body of the loop (py_module.cpp:334-342). *)
Inductive point := AtCheck | AtStore | AtResult | AtReport.

(** A thread: its point, and the loop indices it still has to handle, the current one first. *)
Record thread := mkThread { t_point : point; t_todo : list nat }.

(** The shared variables errval (is it GSL_EDOM?), results, and the threads. *)
Record state (V : Type) := mkState { st_err : bool; st_results : list V; st_threads : list thread }.
Arguments mkState {V}. Arguments st_err {V}. Arguments st_results {V}. Arguments st_threads {V}.

(** One memory access of one thread.  335: reads errval, and skips the particle if it is GSL_EDOM.
    338: stores the return value in errval.  339: stores the result.  340: reads errval again, to
    write errstr.  A thread that has finished, or does not exist, does nothing. *)
Definition step {V : Type} (eval : nat -> option V) (junk : nat -> V) (st : state V) (k : nat) : state V :=
  match nth_error (st_threads st) k with
  | Some (mkThread pt (i :: rest)) =>
      let move t := update_nth k (fun _ => t) (st_threads st) in
      match pt with
      | AtCheck => if st_err st
                   then mkState (st_err st) (st_results st) (move (mkThread AtCheck rest))
                   else mkState (st_err st) (st_results st) (move (mkThread AtStore (i :: rest)))
      | AtStore => mkState (match eval i with None => true | Some _ => false end) (st_results st)
                     (move (mkThread AtResult (i :: rest)))
      | AtResult => mkState (st_err st)
                      (update_nth i (fun _ => match eval i with None => junk i | Some v => v end) (st_results st))
                      (move (mkThread AtReport (i :: rest)))
      | AtReport => mkState (st_err st) (st_results st) (move (mkThread AtCheck rest))
      end
  | _ => st
  end.

(** A run: [sched] says which thread moves next. *)
Definition run {V : Type} (eval : nat -> option V) (junk : nat -> V) (sched : list nat) (st : state V) : state V :=
  fold_left (step eval junk) sched st.

(** py_module.cpp:315-333: zeroed results, errval 0, the indices given out to the threads. *)
Definition start {V : Type} (zero : V) (n : nat) (parts : list (list nat)) : state V :=
  mkState false (repeat zero n) (map (mkThread AtCheck) parts).

(** All threads have done their share. *)
Definition finished {V : Type} (st : state V) : Prop := Forall (fun t => t_todo t = []) (st_threads st).

(** py_module.cpp:343-354: None is the exception. *)
Definition answer {V : Type} (st : state V) : option (list V) :=
  if st_err st then None else Some (st_results st).
