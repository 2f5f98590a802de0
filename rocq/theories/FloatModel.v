(** Model of sums in floating point: the accumulation of a pixel over particles, segments and ranks (fake_spectra/absorption.cpp,
    fake_spectra/part_int.cpp, fake_spectra/spectra.py), the mean flux, and the rescaling loop of fake_spectra/py_module.cpp.

    Numbers are binary floating point numbers of 24 or 53 bits with gradual underflow and rounding to nearest even, as in Flocq; what is
    not finite is a value of its own.  Fused multiplication and addition, and registers with more bits, are not modelled. *)
From Coq Require Import List Bool ZArith Reals Lra Lia Permutation.
From Flocq Require Import Core.
Import ListNotations.
Local Open Scope R_scope.

(** ** Numbers *)

(** numpy.float32 and float; numpy.float64 and double. *)
Inductive prec := Single | Double.

(** IEEE 754: the digits of the two formats, the smallest and the largest exponent. *)
Definition bits (p : prec) : Z := match p with Single => 24 | Double => 53 end.
(** The exponent of the smallest number. *)
Definition emin (p : prec) : Z := match p with Single => -149 | Double => -1074 end.
(** The exponent beyond the largest number. *)
Definition emax (p : prec) : Z := match p with Single => 128 | Double => 1024 end.

(** Rounding to nearest, ties to even. *)
Definition rnd (p : prec) (x : R) : R := round radix2 (FLT_exp (emin p) (bits p)) ZnearestE x.

(** Finite numbers, infinities and not a number. *)
Inductive fl := Fin (x : R) | PInf | NInf | NaN.

(** The result of an operation whose exact result is [x]. *)
Definition finite (p : prec) (x : R) : fl :=
  let y := rnd p x in
  if Rle_dec (bpow radix2 (emax p)) y then PInf
  else if Rle_dec y (- bpow radix2 (emax p)) then NInf
  else Fin y.

(** IEEE 754 negation. *)
Definition fneg (a : fl) : fl := match a with Fin x => Fin (- x) | PInf => NInf | NInf => PInf | NaN => NaN end.

(** IEEE 754 addition. *)
Definition fadd (p : prec) (a b : fl) : fl :=
  match a, b with
  | Fin x, Fin y => finite p (x + y)
  | NaN, _ | _, NaN | PInf, NInf | NInf, PInf => NaN
  | PInf, _ | _, PInf => PInf
  | NInf, _ | _, NInf => NInf
  end.

(** IEEE 754 subtraction. *)
Definition fsub (p : prec) (a b : fl) : fl := fadd p a (fneg b).

(** Conversion to another precision. *)
Definition cast (p : prec) (a : fl) : fl := match a with Fin x => finite p x | _ => a end.

(** ** One pixel of a spectrum *)

(** absorption.cpp:208, 265, 278: what is added to the pixel, in order, in the array py_module.cpp:196-204 fills with zeros. *)
Definition particle_sum (cs : list R) : fl := fold_left (fun acc c => fadd Double acc (Fin c)) cs (Fin 0).

(** spectra.py:501-548 for one segment: [None] if it has no particle near a line (spectra.py:527), else what its particles add. *)
Definition interpolate_segment (s : option (list R)) : prec * fl :=
  match s with
  | None => (Single, Fin 0)
  | Some cs => (Double, particle_sum cs)
  end.

(** spectra.py:823, numpy's addition in place: in the larger precision, then converted to that of the left hand side. *)
Definition accumulate (r t : prec * fl) : prec * fl :=
  match fst r, fst t with
  | Single, Double => (Single, cast Single (fadd Double (snd r) (snd t)))
  | p, _ => (p, fadd p (snd r) (snd t))
  end.

(** spectra.py:817-824: the segments of one rank. *)
Definition rank_sum (first : option (list R)) (rest : list (option (list R))) : prec * fl :=
  fold_left accumulate (map interpolate_segment rest) (interpolate_segment first).

(** An order in which numbers are added in pairs: that of MPI's reduction, of OpenMP's, or of numpy.sum. *)
Inductive tree := Leaf (a : fl) | Node (l r : tree).
(** The value of a sum in the order given by the tree. *)
Fixpoint eval (p : prec) (t : tree) : fl :=
  match t with Leaf a => a | Node l r => fadd p (eval p l) (eval p r) end.
(** The numbers added. *)
Fixpoint leaves (t : tree) : list fl :=
  match t with Leaf a => [a] | Node l r => leaves l ++ leaves r end.

(** spectra.py:825-826: without MPI the result of the only rank. *)
Definition compute_serial (first : option (list R)) (rest : list (option (list R))) : prec * fl := rank_sum first rest.

(** spectra.py:827-831: the ranks' results are converted, and added in some order. *)
Definition compute_mpi (ranks : list (option (list R) * list (option (list R)))) (t : tree) (out : prec * fl) : Prop :=
  Permutation (leaves t) (map (fun r => cast Single (snd (rank_sum (fst r) (snd r)))) ranks) /\ out = (Single, eval Single t).

(** ** The mean flux *)

(** spectra.py:1271-1276: numpy.mean of the fluxes, added in some order.  The number of pixels is exact, and the
    division is rounded once. *)
Definition mean_of (p : prec) (t : tree) : fl :=
  match eval p t with
  | Fin s => finite p (s / INR (length (leaves t)))
  | a => a
  end.

(** ** The rescaling loop *)

Definition positive (x : R) : bool := if Rlt_dec 0 x then true else false.

(** Multiplication. *)
Definition fmul (p : prec) (a b : fl) : fl :=
  let times (x : R) (inf : fl) := if Req_EM_T x 0 then NaN else if positive x then inf else fneg inf in
  match a, b with
  | Fin x, Fin y => finite p (x * y)
  | NaN, _ | _, NaN => NaN
  | Fin x, i | i, Fin x => times x i
  | PInf, i | i, PInf => i
  | NInf, NInf => PInf
  end.

(** Division; a divisor that is zero is the positive one. *)
Definition fdiv (p : prec) (a b : fl) : fl :=
  match a, b with
  | NaN, _ | _, NaN => NaN
  | Fin x, Fin y => if Req_EM_T y 0 then (if Req_EM_T x 0 then NaN else if positive x then PInf else NInf) else finite p (x / y)
  | Fin _, _ => Fin 0
  | i, Fin y => if Req_EM_T y 0 then i else if positive y then i else fneg i
  | _, _ => NaN
  end.

(** a < b; false if one is NaN. *)
Definition flt (a b : fl) : bool :=
  match a, b with
  | NaN, _ | _, NaN => false
  | Fin x, Fin y => if Rlt_dec x y then true else false
  | NInf, NInf | PInf, _ | _, NInf => false
  | _, _ => true
  end.
(** IEEE 754 comparison. *)
Definition fle (a b : fl) : bool :=
  match a, b with
  | NaN, _ | _, NaN => false
  | _, _ => negb (flt b a)
  end.
(** The absolute value. *)
Definition fabs (a : fl) : fl := match a with Fin x => Fin (Rabs x) | NInf => PInf | _ => a end.

(** One pass over the pixels: the two sums, each added in some order, and the number of pixels used. *)
Record pass := mkPass { p_flux : tree; p_tau : tree; p_used : nat }.

(** py_module.cpp:241-252 with the factor [scale]: pixels above the threshold are left out; [expf] is the exponential of the C library.
    The sums of OpenMP start with a zero for every thread. *)
Definition one_pass (expf : R -> R) (tau : list R) (thresh : R) (scale : R) (q : pass) : Prop :=
  let used := filter (fun t => if Rlt_dec thresh t then false else true) tau in
  let temp (t : R) := match fmul Double (Fin (- scale)) (Fin t) with Fin x => Fin (expf x) | PInf => PInf | _ => Fin 0 end in
  (exists threads, Permutation (leaves (p_flux q)) (map temp used ++ repeat (Fin 0) threads)) /\
  (exists threads, Permutation (leaves (p_tau q)) (map (fun t => fmul Double (temp t) (Fin t)) used ++ repeat (Fin 0) threads)) /\
  p_used q = length used.

(** py_module.cpp:254-259, with the mean flux [d] that is wanted. *)
Definition next_scale (d scale : R) (q : pass) : fl :=
  let new := fadd Double (Fin scale)
    (fdiv Double (fsub Double (eval Double (p_flux q)) (fmul Double (Fin d) (Fin (INR (p_used q))))) (eval Double (p_tau q))) in
  if fle new (Fin 0) then Fin (rnd Double (/ 10000000000)) else new.

(** py_module.cpp:234-262.  [run k scale] is the [k]-th pass, which may differ in order from another one.  The loop ends with the result;
    [None]: still running.  That it does not go on with an infinite factor is shown by [again_finite] in FloatProofs3. *)
Fixpoint scale_loop (run : nat -> R -> pass) (d tol : R) (fuel : nat) (k : nat) (scale : R) : option fl :=
  match fuel with
  | O => None
  | S fuel' =>
      let new := next_scale d scale (run k scale) in
      if flt (fmul Double (Fin tol) new) (fabs (fsub Double new (Fin scale)))
      then match new with Fin x => scale_loop run d tol fuel' (S k) x | _ => None end
      else Some new
  end.
(** py_module.cpp:234-262, with the definition above. *)
Definition get_mean_flux_scale (run : nat -> R -> pass) (d tol : R) (fuel : nat) : option fl := scale_loop run d tol fuel 0 1.
