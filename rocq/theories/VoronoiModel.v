(** Model of the assignment of parts of a sightline to the cells of a Voronoi mesh:
    fake_spectra/index_table.cpp:152-223 (IndexTable::assign_cells).

    Coordinates are real numbers, already permuted so that the first coordinate runs along the
    sightline (index_table.cpp:166 and 179-183 do this by indexing with the axis; see
    PipelineModel for the indexing).  Rounding to float is not modelled, nor is the overflow of
    the int grid size for boxes longer than 2^31/10. *)
From Coq Require Import ZArith List Reals.
From Flocq Require Import Core.Raux.
Import ListNotations.
Local Open Scope R_scope.

(** index_table.h:8 *)
Definition RESO : R := 1 / 10.

(** index_table.cpp:162 int(boxsize/RESO) and 163. *)
Definition grid_size (box : R) : nat := Z.to_nat (Ztrunc (box / RESO)).
(** index_table.cpp:162, with the definition above. *)
Definition grid_reso (box : R) : R := box / INR (grid_size box).

(** index_table.cpp:171 *)
Definition grid_point (reso : R) (i : nat) : R := (INR i + / 2) * reso.

(** A cell generating point: coordinate along the line and the two transverse ones. *)
Record cell := mkCell { c_along : R; c_second : R; c_third : R }.

(** index_table.cpp:179-184: fabs and a single fold. *)
Definition fold_sep (box d : R) : R :=
  let a := Rabs d in if Rlt_dec (box / 2) a then box - a else a.

(** index_table.cpp:185 *)
Definition cell_dist (box yp zp xp : R) (c : cell) : R :=
  let dx := fold_sep box (c_along c - xp) in
  let dy := fold_sep box (c_second c - yp) in
  let dz := fold_sep box (c_third c - zp) in
  sqrt (dx * dx + dy * dy + dz * dz).

(** index_table.cpp:173-191: the running minimum starts at the box size with index 0. *)
Definition nearest_cell (box yp zp : R) (cs : list cell) (xp : R) : nat :=
  let '(_, min_ind, _) :=
    fold_left (fun st c =>
        let '(min_dist, min_ind, ind) := st in
        let d := cell_dist box yp zp xp c in
        if Rlt_dec d min_dist then (d, ind, S ind) else (min_dist, min_ind, S ind))
      cs (box, O, O) in
  min_ind.

(** arr2[2*m] = lo; arr2[2*m+1] = hi *)
Fixpoint set_seg (m : nat) (v : R * R) (arr : list (R * R)) : list (R * R) :=
  match arr, m with
  | [], _ => []
  | _ :: t, O => v :: t
  | x :: t, S m' => x :: set_seg m' v t
  end.

(** What assign_cells does: returns the segments, leaves the process by exit(1)
    (index_table.cpp:207-211), or touches memory outside arr2. *)
Inductive outcome := Segments (arr : list (R * R)) | Exits | OutOfBounds.

(** index_table.cpp:168-215: the loop over grid points.  [own] is the search for the nearest
    cell of the grid point with the given number. *)
Fixpoint grid_loop (box reso : R) (own : nat -> nat) (points : list nat) (arr : list (R * R))
  : outcome :=
  match points with
  | [] => Segments arr
  | i :: rest =>
      let xp := grid_point reso i in
      let m := own i in
      match nth_error arr m with
      | None => OutOfBounds
      | Some (lo, hi) =>
          if Rlt_dec lo reso then
            if Rlt_dec (box / 2 + / 2 * reso) xp then Segments (set_seg m (xp, hi + box) arr)
            else if Rlt_dec (3 / 2 * reso + hi) xp then Exits
            else grid_loop box reso own rest
                   (set_seg m (if Rlt_dec (2 * box) lo then xp else lo, xp) arr)
          else if Rlt_dec (3 / 2 * reso + hi) xp then Exits
          else grid_loop box reso own rest
                 (set_seg m (if Rlt_dec (2 * box) lo then xp else lo, xp) arr)
      end
  end.

(** index_table.cpp:152-223 *)
Definition assign_cells (box yp zp : R) (cs : list cell) : outcome :=
  let reso := grid_reso box in
  match grid_loop box reso (fun i => nearest_cell box yp zp cs (grid_point reso i))
          (seq 0 (grid_size box)) (repeat (3 * box, 3 * box) (length cs)) with
  | Segments arr => Segments (map (fun s => (fst s - / 2 * reso, snd s + / 2 * reso)) arr)
  | o => o
  end.
