(** Model of fake_spectra/index_table.cpp (search part) and of Py_near_lines in
    fake_spectra/py_module.cpp.

    Simplification: coordinates, lengths and squared distances are integers.  Any finite set
    of binary floating point numbers consists of integer multiples of one common quantum, so
    this is exact arithmetic on the inputs; float rounding of [first+hh] etc. is not
    modelled. *)
From Coq Require Import ZArith List Bool.
From Verif Require Import Containers.
Import ListNotations.
Open Scope Z_scope.

(** A sightline: entry of [axis] and row of [cofm] (index_table.h:47-49). *)
Record sightline := mkLine { l_axis : Z; l_x : Z; l_y : Z; l_z : Z }.

(** A particle: row of [pos] and entry of [hh]. *)
Record particle := mkPart { p_x : Z; p_y : Z; p_z : Z; p_h : Z }.

(** index_table.cpp:7-18, the constructor loop for [index_table] (axis is not 1, key is x). *)
Fixpoint build_table (i : nat) (ls : list sightline) (m : multimap) : multimap :=
  match ls with
  | [] => m
  | l :: ls' =>
      build_table (S i) ls' (if l_axis l =? 1 then m else mm_insert (l_x l) i m)
  end.

(** index_table.cpp:7-18, the constructor loop for [index_table_xx] (axis is 1, key is y). *)
Fixpoint build_table_xx (i : nat) (ls : list sightline) (m : multimap) : multimap :=
  match ls with
  | [] => m
  | l :: ls' =>
      build_table_xx (S i) ls' (if l_axis l =? 1 then mm_insert (l_y l) i m else m)
  end.

(** index_table.cpp:52-68. *)
Definition second_close (box second lproj2 hh : Z) : bool :=
  let ffp := second + hh in
  if (box <? ffp) && (lproj2 <? ffp - box) then true
  else
    let ffm := second - hh in
    if (ffm <? 0) && (ffm + box <? lproj2) then true
    else (ffm <? lproj2) && (lproj2 <? ffp).

(** index_table.cpp:70-87; [dr > 0.5*boxsize] is written [box < 2*dr]. *)
Definition fold_dist (box d : Z) : Z :=
  let dr := Z.abs d in if box <? 2 * dr then box - dr else dr.

(** index_table.cpp:70-87 calc_dr2 *)
Definition calc_dr2 (box d1 d2 : Z) : Z :=
  fold_dist box d1 * fold_dist box d1 + fold_dist box d2 * fold_dist box d2.

(** Body of the loop of get_nearby_from_range, index_table.cpp:26-48.  [nth_error] failing
    corresponds to an out of bounds read of [axis]/[cofm]. *)
Definition visit_line (box : Z) (ls : list sightline) (p : particle) (first : Z)
    (acc : option (imap Z)) (e : Z * nat) : option (imap Z) :=
  match acc, nth_error ls (snd e) with
  | Some nearby, Some l =>
      let second := if l_axis l =? 3 then p_y p else p_z p in
      let lproj2 := if l_axis l =? 3 then l_y l else l_z l in
      let lproj := fst e in
      if second_close box second lproj2 (p_h p) then
        let dr2 := calc_dr2 box (first - lproj) (second - lproj2) in
        if dr2 <=? p_h p * p_h p
        then Some (map_assign (Z.of_nat (snd e)) dr2 nearby)
        else Some nearby
      else Some nearby
  | _, _ => None
  end.

(** index_table.cpp:22-50. *)
Definition get_nearby_from_range (box : Z) (ls : list sightline) (p : particle) (first : Z)
    (m : multimap) (low high : nat) (nearby : option (imap Z)) : option (imap Z) :=
  match iter_range m low high with
  | None => None
  | Some es => fold_left (visit_line box ls p first) es nearby
  end.

(** index_table.cpp:89-113. *)
Definition get_nearby (box : Z) (ls : list sightline) (p : particle) (first : Z)
    (m : multimap) (nearby : option (imap Z)) : option (imap Z) :=
  let ffp0 := first + p_h p in
  let ffp := if box <? ffp0 then ffp0 - box else ffp0 in
  let ffm0 := first - p_h p in
  let ffm := if ffm0 <? 0 then ffm0 + box else ffm0 in
  let low := lower_bound m ffm in
  let high := lower_bound m ffp in
  if ffm <=? ffp then get_nearby_from_range box ls p first m low high nearby
  else
    get_nearby_from_range box ls p first m low (length m)
      (get_nearby_from_range box ls p first m 0 high nearby).

(** index_table.cpp:117-127. *)
Definition get_near_lines (box : Z) (ls : list sightline) (p : particle) : option (imap Z) :=
  let t := build_table 0 ls [] in
  let txx := build_table_xx 0 ls [] in
  let n0 := Some [] in
  let n1 := match t with [] => n0 | _ => get_nearby box ls p (p_x p) t n0 end in
  match txx with [] => n1 | _ => get_nearby box ls p (p_y p) txx n1 end.

(** py_module.cpp:73-82: the body of one iteration of the parallel loop of Py_near_lines.
    The search is a pure read; the insertion into the shared set is a critical section, so
    an iteration is one atomic step on the set.  [i] is the [long long] loop counter. *)
Definition near_lines_step (box : Z) (ls : list sightline) (ps : list particle)
    (s : option (list Z)) (i : nat) : option (list Z) :=
  match s, nth_error ps i with
  | Some s, Some p =>
      match get_near_lines box ls p with
      | None => None
      | Some [] => Some s
      | Some _ => Some (set_insert (to_int32 (Z.of_nat i)) s)
      end
  | _, _ => None
  end.

(** py_module.cpp:65-89: the loop run in the order [order] chosen by the OpenMP scheduler,
    then the set copied to the output array in increasing order. *)
Definition py_near_lines (box : Z) (ls : list sightline) (ps : list particle)
    (order : list nat) : option (list Z) :=
  fold_left (near_lines_step box ls ps) order (Some []).

(** index_table.cpp:143-146: inserting the pairs found for particle [i] into the per-line
    lists (critical section). *)
Fixpoint update_nth {A} (n : nat) (f : A -> A) (l : list A) : list A :=
  match l, n with
  | [], _ => []
  | a :: l', O => f a :: l'
  | a :: l', S n' => a :: update_nth n' f l'
  end.

(** index_table.cpp:140-147, for all pairs of the particle *)
Definition insert_particle (i : nat) (lists : list (imap Z)) (nearby : imap Z)
  : list (imap Z) :=
  fold_left (fun acc e =>
      update_nth (Z.to_nat (fst e)) (map_insert (to_int32 (Z.of_nat i)) (snd e)) acc)
    nearby lists.

(** index_table.cpp:136-148: one iteration of the parallel loop of get_near_particles. *)
Definition near_particles_step (box : Z) (ls : list sightline) (ps : list particle)
    (s : option (list (imap Z))) (i : nat) : option (list (imap Z)) :=
  match s, nth_error ps i with
  | Some lists, Some p =>
      match get_near_lines box ls p with
      | None => None
      | Some nearby => Some (insert_particle i lists nearby)
      end
  | _, _ => None
  end.

(** index_table.cpp:130-150, with the loop order chosen by the scheduler. *)
Definition get_near_particles (box : Z) (ls : list sightline) (ps : list particle)
    (order : list nat) : option (list (imap Z)) :=
  fold_left (near_particles_step box ls ps) order (Some (map (fun _ => []) ls)).
