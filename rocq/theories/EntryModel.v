(** Model of the four functions the extension module exports, fake_spectra/py_module.cpp: which arguments they accept, which
    elements of which arrays they read and write, and how they count references.

    A call is a list of events and an outcome.  What the numbers are is not modelled here (see IndexModel, PipelineModel,
    RescaleModel and TableModel): where the memory that is touched depends on the numbers, the dependence is an argument of the
    call.  PyArg_ParseTuple succeeds and no allocation of a valid size fails. *)
From Coq Require Import List Bool ZArith Arith Lia.
Import ListNotations.
Local Open Scope Z_scope.

(** ** Arrays *)

Inductive dtype := Float32 | Float64 | Int32 | OtherType (itemsize : Z).

(** PyArray_ITEMSIZE: bytes of one number. *)
Definition itemsize (t : dtype) : Z :=
  match t with Float32 => 4 | Float64 => 8 | Int32 => 4 | OtherType w => w end.

(** The comparisons of PyArray_TYPE with a type number. *)
Definition is_float32 (t : dtype) : bool := match t with Float32 => true | _ => false end.
(** The same for NPY_DOUBLE. *)
Definition is_float64 (t : dtype) : bool := match t with Float64 => true | _ => false end.
(** The same for NPY_INT. *)
Definition is_int32 (t : dtype) : bool := match t with Int32 => true | _ => false end.

(** A NumPy array: its type, shape and whether it is contiguous. *)
Record ndarray := mkArray { a_type : dtype; a_shape : list Z; a_contig : bool }.

(** PyArray_DIM; [None]: there is no such dimension, and the C macro reads past the dimensions. *)
Definition dim (a : ndarray) (k : nat) : option Z := nth_error (a_shape a) k.
(** PyArray_NDIM *)
Definition ndim (a : ndarray) : nat := length (a_shape a).

(** py_module.cpp:12-20 check_type and check_float return nonzero for the wrong type (the reference to the type descriptor they keep is
    not counted below: descriptors of built-in types are never freed). *)
Definition check_float (a : ndarray) : bool := negb (is_float32 (a_type a)).
(** py_module.cpp:12-20, with the definition above. *)
Definition check_double (a : ndarray) : bool := negb (is_float64 (a_type a)).
(** py_module.cpp:12-20, with the definition above. *)
Definition check_int (a : ndarray) : bool := negb (is_int32 (a_type a)).

(** ** Events *)

(** The objects of a call: its arguments by number, contiguous copies of them, the array returned, and the interpolator of GSL. *)
Inductive obj := Arg (k : nat) | Copy (k : nat) | Output | Interpolator.

(** References, and accesses to the [i]-th number of [w] bytes of the data of an object.  [Overflow]: a sum of type int that is too
    large. *)
Inductive event := Incref (o : obj) | Create (o : obj) | Decref (o : obj) | Read (o : obj) (w i : Z) | Write (o : obj) (w i : Z) | Overflow.

(** The python exceptions set by the module. *)
Inductive exc := ValueError | TypeError | AttributeError.
(** How a call ends: with an exception, with arrays, or undefined. *)
Inductive outcome := Raised (e : exc) | Returned | Undefined.

(** PyArray_GETCONTIGUOUS of argument [k]: a new reference to it if it is contiguous, else a copy. *)
Definition contiguous (k : nat) (a : ndarray) : obj * event :=
  if a_contig a then (Arg k, Incref (Arg k)) else (Copy k, Create (Copy k)).

(** ** The index table *)

(** The sightlines: their number and the values of the array axis. *)
Record lines := mkLines { l_num : nat; l_axis : nat -> Z }.

(** A count as an integer (helper). *)
Definition zn := Z.of_nat.

(** index_table.cpp:7-18 *)
Definition build_reads (axis cofm : obj) (ls : lines) : list event :=
  flat_map (fun i => [Read axis 4 (zn i); Read cofm 8 (if l_axis ls i =? 1 then 3 * zn i + 1 else 3 * zn i)]) (seq 0 (l_num ls)).

(** Is there a line in index_table, or in index_table_xx (index_table.cpp:120, 123)? *)
Definition some_other (ls : lines) : bool := existsb (fun i => negb (l_axis ls i =? 1)) (seq 0 (l_num ls)).
(** index_table.cpp:120, 123, with the definition above. *)
Definition some_x (ls : lines) : bool := existsb (fun i => l_axis ls i =? 1) (seq 0 (l_num ls)).

(** index_table.cpp:22-50, 117-127 for particle [i], which is compared with the lines [visit]. *)
Definition search_reads (pos axis cofm : obj) (ls : lines) (visit : list nat) (i : nat) : list event :=
  (if some_other ls then [Read pos 4 (3 * zn i)] else []) ++
  (if some_x ls then [Read pos 4 (3 * zn i + 1)] else []) ++
  flat_map (fun l =>
    let c := if l_axis ls l =? 3 then 1 else 2 in
    [Read axis 4 (zn l); Read pos 4 (3 * zn i + c); Read cofm 8 (3 * zn l + c)]) visit.

(** py_module.cpp:74-75 and index_table.cpp:136-138: the loop over particles. *)
Definition loop_reads (pos h axis cofm : obj) (ls : lines) (visit : nat -> list nat) (npart : nat) : list event :=
  flat_map (fun i => Read h 4 (zn i) :: search_reads pos axis cofm ls (visit i) i) (seq 0 npart).

(** ** _near_lines *)

(** Arguments 0 to 3, the values of axis, and the lines every particle is compared with. *)
Record near_call := mkNear { n_pos : ndarray; n_hh : ndarray; n_axis : ndarray; n_cofm : ndarray;
  n_values : nat -> Z; n_visit : nat -> list nat }.

(** py_module.cpp:25-99 *)
Definition near_lines (q : near_call) : list event * outcome :=
  if ((ndim (n_cofm q) <? 2) || (ndim (n_axis q) <? 1))%nat then ([], Raised ValueError) else
  match dim (n_cofm q) 0, dim (n_pos q) 0, dim (n_axis q) 0, dim (n_cofm q) 1 with
  | Some numlos, Some npart, Some naxis, Some three =>
      if negb (numlos =? naxis) || negb (3 =? three) then ([], Raised ValueError)
      else if check_double (n_cofm q) || check_int (n_axis q) then ([], Raised ValueError)
      else if check_float (n_pos q) || check_float (n_hh q) then ([], Raised TypeError)
      else
        let '(cofm, e1) := contiguous 3 (n_cofm q) in
        let '(axis, e2) := contiguous 2 (n_axis q) in
        let '(pos, e3) := contiguous 0 (n_pos q) in
        let '(hh, e4) := contiguous 1 (n_hh q) in
        let ls := mkLines (Z.to_nat numlos) (n_values q) in
        ([e1; e2] ++ build_reads axis cofm ls ++ [e3; e4] ++
         loop_reads pos hh axis cofm ls (n_visit q) (Z.to_nat npart) ++
         [Create Output; Incref Output; Decref Output; Decref pos; Decref hh; Decref cofm; Decref axis], Returned)
  | _, _, _, _ => ([], Undefined)
  end.

(** ** _Particle_Interpolate *)

(** Arguments 0 to 6, the flag compute_tau, the number of bins, whether the kernel is the Voronoi mesh, the values of axis, the lines
    every particle is compared with, the particles near a line in increasing order, and the bins of the line (each between 0 and nbins)
    a particle contributes to, in the order they are written. *)
Record interp_call := mkInterp { q_tau : bool; q_nbins : Z; q_mesh : bool; q_pos : ndarray; q_vel : ndarray; q_dens : ndarray;
  q_temp : ndarray; q_h : ndarray; q_axis : ndarray; q_cofm : ndarray;
  q_values : nat -> Z; q_visit : nat -> list nat; q_near : nat -> list nat; q_bins : nat -> nat -> list Z }.

(** An index computed as int; beyond 2^31 particles the keys of the map would wrap too, which comes after this. *)
Definition int_read (o : obj) (i : Z) : event := if i <=? 2147483647 then Read o 4 i else Overflow.

(** index_table.cpp:152-191 assign_cells for a line, if its grid has a point (C's % truncates). *)
Definition cell_reads (pos cofm : obj) (ax line : Z) (near : list nat) : list event :=
  [Read cofm 8 (3 * line + Z.rem ax 3); Read cofm 8 (3 * line + Z.rem (ax + 1) 3)] ++
  flat_map (fun p => [int_read pos (3 * zn p + ax - 1); int_read pos (3 * zn p + Z.rem ax 3); int_read pos (3 * zn p + Z.rem (ax + 1) 3)]) near.

(** part_int.cpp:31, 64: the index of the first bin of a line is an unsigned int. *)
Definition row (line nbins : Z) : Z := (line * nbins) mod 4294967296.

(** part_int.cpp:20-51 and 53-84 for one line. *)
Definition line_accesses (q : interp_call) (pos vel dens temp h axis cofm : obj) (line : nat) : list event :=
  let ax := q_values q line in
  (if q_mesh q then Read axis 4 (zn line) :: cell_reads pos cofm ax (zn line) (q_near q line) else []) ++
  Read axis 4 (zn line) ::
  flat_map (fun p =>
    (int_read pos (3 * zn p + ax - 1) :: (if q_tau q then [int_read vel (3 * zn p + ax - 1)] else [])) ++
    (Read dens 4 (zn p) :: (if q_tau q then [Read temp 4 (zn p)] else []) ++ (if q_mesh q then [] else [Read h 4 (zn p)])) ++
    map (fun j => Write Output 8 (row (zn line) (q_nbins q) + j)) (q_bins q line p)) (q_near q line).

(** py_module.cpp:103-233.  A number of bins that is not positive is undefined: a negative one makes PyArray_SimpleNew return NULL,
    whose data is asked for before the pointer is checked; for none the remainder in absorption.cpp:199, 257, 271 divides by zero (as
    soon as a particle is near a line, which is not asked here). *)
Definition interpolate (q : interp_call) : list event * outcome :=
  if check_float (q_pos q) || check_float (q_vel q) || check_float (q_dens q) || check_float (q_temp q) || check_float (q_h q)
  then ([], Raised TypeError)
  else if check_double (q_cofm q) then ([], Raised TypeError)
  else if check_int (q_axis q) then ([], Raised TypeError)
  else
  match dim (q_cofm q) 0, dim (q_pos q) 0, dim (q_dens q) 0 with
  | Some numlos, Some npart, Some ndens =>
    if negb (npart =? ndens) then ([], Raised ValueError) else
    match dim (q_h q) 0 with
    | None => ([], Undefined)
    | Some nh =>
      if negb (npart =? nh) then ([], Raised ValueError) else
      match dim (q_axis q) 0 with
      | None => ([], Undefined)
      | Some naxis =>
        if negb (numlos =? naxis) then ([], Raised ValueError) else
        match dim (q_cofm q) 1 with
        | None => ([], Undefined)
        | Some three =>
          if negb (3 =? three) then ([], Raised ValueError) else
          let '(pos, e1) := contiguous 0 (q_pos q) in
          let '(dens, e2) := contiguous 2 (q_dens q) in
          let '(h, e3) := contiguous 4 (q_h q) in
          let '(cofm, e4) := contiguous 6 (q_cofm q) in
          let '(axis, e5) := contiguous 5 (q_axis q) in
          let '(vel, e6) := contiguous 1 (q_vel q) in
          let '(temp, e7) := contiguous 3 (q_temp q) in
          let ls := mkLines (Z.to_nat numlos) (q_values q) in
          let start := [e1; e2; e3; e4; e5] ++ build_reads axis cofm ls ++ (if q_tau q then [e6; e7] else []) in
          if q_nbins q <=? 0 then (start, Undefined) else
          (start ++ [Create Output] ++
           loop_reads pos h axis cofm ls (q_visit q) (Z.to_nat npart) ++
           flat_map (line_accesses q pos vel dens temp h axis cofm) (seq 0 (Z.to_nat numlos)) ++
           [Incref Output; Decref Output] ++ (if q_tau q then [Decref vel; Decref temp] else []) ++
           [Decref pos; Decref dens; Decref h; Decref cofm; Decref axis], Returned)
        end
      end
    end
  | _, _, _ => ([], Undefined)
  end.

(** ** _rescale_mean_flux *)

(** py_module.cpp:263-282: argument 0 is the array, [nbins] the number of pixels the caller says it has; [passes] iterations. *)
Definition rescale (tau : ndarray) (nbins : Z) (passes : nat) : list event * outcome :=
  let '(o, e) := contiguous 0 tau in
  if check_double tau then ([e], Raised TypeError)
  else (e :: flat_map (fun _ => map (fun i => Read o 8 (zn i)) (seq 0 (Z.to_nat nbins))) (seq 0 passes) ++ [Decref o], Returned).

(** ** _interpolate_2d *)

(** Arguments 0 to 4; [bad]: a particle is outside the grid (and the flag keeps that, see C17). *)
Record table_call := mkTable { t_a : ndarray; t_b : ndarray; t_x : ndarray; t_y : ndarray; t_grid : ndarray; t_bad : bool }.

(** Reading [n] numbers of type double. *)
Definition doubles (o : obj) (n : Z) : list event := map (fun i => Read o 8 (zn i)) (seq 0 (Z.to_nat n)).

(** py_module.cpp:291-355.  The sizes are those bicubic interpolation needs; the loop stops at the particle that is [bad], if there is
    one, which is taken to be the last. *)
Definition interpolate_2d (q : table_call) : list event * outcome :=
  if check_float (t_a q) || check_float (t_b q) then ([], Raised TypeError) else
  let '(a, e1) := contiguous 0 (t_a q) in
  let '(b, e2) := contiguous 1 (t_b q) in
  match dim (t_x q) 0, dim (t_y q) 0, dim (t_a q) 0 with
  | Some xsize, Some ysize, Some osize =>
      let work := [e1; e2; Create Output; Create Interpolator] ++ doubles (Arg 2) xsize ++ doubles (Arg 3) ysize ++
        doubles (Arg 4) (xsize * ysize) ++
        flat_map (fun i => [Read a 4 (zn i); Read b 4 (zn i); Write Output 4 (zn i)]) (seq 0 (Z.to_nat osize)) in
      if t_bad q then (work, Raised AttributeError)
      else (work ++ [Decref Interpolator; Incref Output; Decref Output], Returned)
  | _, _, _ => ([e1; e2], Undefined)
  end.
