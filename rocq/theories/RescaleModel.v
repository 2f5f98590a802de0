(** Model of the mean flux rescaling: get_mean_flux_scale in fake_spectra/py_module.cpp:235-262
    and mean_flux in fake_spectra/fluxstatistics.py:26-39.

    Doubles are real numbers; overflow, underflow and rounding are not modelled, except that a
    division by zero gives an infinity or NaN. *)
From Coq Require Import List Reals.
Import ListNotations.
Local Open Scope R_scope.

(** The three reduction variables mean_flux, tau_mean_flux, nbins_used. *)
Record sums := mkSums { s_flux : R; s_tau_flux : R; s_used : nat }.

(** py_module.cpp:244-252: the body of the parallel loop on a thread's private copies. *)
Definition add_pixel (thresh scale : R) (acc : sums) (tau : R) : sums :=
  if Rlt_dec thresh tau then acc
  else let temp := exp (- scale * tau) in
       mkSums (s_flux acc + temp) (s_tau_flux acc + temp * tau) (S (s_used acc)).

(** The private copies are added up when the loop ends (reduction clause, line 243).  [parts] is
    the list of pixels of every thread, in the order in which it handles them. *)
Definition reduce (thresh scale : R) (parts : list (list R)) : sums :=
  fold_left (fun acc p =>
      let s := fold_left (add_pixel thresh scale) p (mkSums 0 0 0) in
      mkSums (s_flux acc + s_flux s) (s_tau_flux acc + s_tau_flux s) (s_used acc + s_used s))
    parts (mkSums 0 0 0).

(** 1e-10 *)
Definition tiny : R := / 10000000000.

(** py_module.cpp:254-259: the next factor.  [None]: plus infinity or NaN.  (Minus infinity is
    <= 0 and becomes 1e-10.) *)
Definition next_scale (target scale : R) (s : sums) : option R :=
  let excess := s_flux s - target * INR (s_used s) in
  if Req_EM_T (s_tau_flux s) 0 then (if Rlt_dec excess 0 then Some tiny else None)
  else let new := scale + excess / s_tau_flux s in
       Some (if Rle_dec new 0 then tiny else new).

(** What the call returns: a number, or an infinity or NaN. *)
Inductive factor := Finite (s : R) | NotFinite.

(** py_module.cpp:237-261: the do-while loop, iteration number [k].  Each iteration may distribute
    the pixels differently over the threads.  [None]: still running after [fuel] iterations.  If the
    new factor is not finite both comparisons are false and the loop ends. *)
Fixpoint scale_loop (parts : nat -> list (list R)) (target tol thresh : R) (fuel k : nat) (scale : R)
  : option factor :=
  match fuel with
  | O => None
  | S fuel' =>
      match next_scale target scale (reduce thresh scale (parts k)) with
      | None => Some NotFinite
      | Some new => if Rlt_dec (tol * new) (Rabs (new - scale))
                    then scale_loop parts target tol thresh fuel' (S k) new
                    else Some (Finite new)
      end
  end.

(** fluxstatistics.py:37-39; [parts] is how the threads divide the pixels of [tau]. *)
Definition mean_flux (parts : nat -> list (list R)) (tau : list R) (target tol thresh : R) (fuel : nat)
  : option factor :=
  match tau with
  | [] => Some (Finite 0)
  | _ => scale_loop parts target tol thresh fuel 0 1
  end.

(** The factors of successive iterations, starting with 1. *)
Fixpoint iterate (parts : nat -> list (list R)) (target thresh : R) (k : nat) : option R :=
  match k with
  | O => Some 1
  | S k' => match iterate parts target thresh k' with
            | None => None
            | Some s => next_scale target s (reduce thresh s (parts k'))
            end
  end.
