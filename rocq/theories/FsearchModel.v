(** Model of the particle search of fake_spectra/index_table.cpp and of Py_near_lines in fake_spectra/py_module.cpp in floating point:
    positions and smoothing lengths of particles are single precision numbers, sightlines and the box are double precision numbers, and
    every operation rounds its result to nearest even in the precision C++ gives it.

    Simplification: numbers have no largest exponent, so the model is that of the code while nothing exceeds 2^127; what is not finite is
    not modelled.  Fused multiplication and addition, and registers with more bits, are not modelled. *)
From Coq Require Import ZArith List Bool Reals.
From Verif Require Import Containers FloatModel.
Import ListNotations.
Local Open Scope R_scope.

(** A sightline: entry of [axis] and row of [cofm], doubles (index_table.h:47-49). *)
Record sightline := mkLine { l_axis : Z; l_x : R; l_y : R; l_z : R }.

(** A particle: row of [pos] and entry of [hh], floats (index_table.h:17). *)
Record particle := mkPart { p_x : R; p_y : R; p_z : R; p_h : R }.

(** The comparisons of C++ on finite numbers, which are exact whatever the two precisions. *)
Definition ltb (a b : R) : bool := if Rlt_dec a b then true else false.
(** Comparison of numbers. *)
Definition leb (a b : R) : bool := if Rle_dec a b then true else false.

(** Results of type [float] and of type [double]. *)
Definition s32 (x : R) : R := rnd Single x.
(** Rounding to double precision. *)
Definition s64 (x : R) : R := rnd Double x.

(** [std::multimap<const double, const int>], index_table.h:43-45: entries in non-decreasing key order. *)
Definition multimap := list (R * nat).

(** [std::multimap::insert], index_table.cpp:12,14: after the entries with an equal key. *)
Fixpoint mm_insert (k : R) (v : nat) (m : multimap) : multimap :=
  match m with
  | [] => [(k, v)]
  | (k', v') :: m' => if ltb k k' then (k, v) :: m else (k', v') :: mm_insert k v m'
  end.

(** [std::multimap::lower_bound], index_table.cpp:102,104: position of the first entry whose key is not less than [k]. *)
Fixpoint lower_bound (m : multimap) (k : R) : nat :=
  match m with
  | [] => 0%nat
  | (k', _) :: m' => if ltb k' k then S (lower_bound m' k) else 0%nat
  end.

(** The entries visited by [for(it = low; it != high; ++it)], index_table.cpp:24; [None] if the loop runs off the end. *)
Definition iter_range (m : multimap) (low high : nat) : option multimap :=
  if Nat.ltb high low then None else Some (firstn (high - low) (skipn low m)).

(** index_table.cpp:7-18, the constructor loop for [index_table] (axis is not 1, key is x). *)
Fixpoint build_table (i : nat) (ls : list sightline) (m : multimap) : multimap :=
  match ls with
  | [] => m
  | l :: ls' => build_table (S i) ls' (if (l_axis l =? 1)%Z then m else mm_insert (l_x l) i m)
  end.

(** index_table.cpp:7-18, the constructor loop for [index_table_xx] (axis is 1, key is y). *)
Fixpoint build_table_xx (i : nat) (ls : list sightline) (m : multimap) : multimap :=
  match ls with
  | [] => m
  | l :: ls' => build_table_xx (S i) ls' (if (l_axis l =? 1)%Z then mm_insert (l_y l) i m else m)
  end.

(** index_table.cpp:52-68: the sums of two floats are floats, the sums with [boxsize] are doubles. *)
Definition second_close (box second lproj2 hh : R) : bool :=
  let ffp := s32 (second + hh) in
  if ltb box ffp && ltb lproj2 (s64 (ffp - box)) then true
  else
    let ffm := s32 (second - hh) in
    if ltb ffm 0 && ltb (s64 (ffm + box)) lproj2 then true
    else ltb ffm lproj2 && ltb lproj2 ffp.

(** index_table.cpp:74-77 and 81-83: the distance in one direction, in double precision; [d] is the argument of calc_dr2. *)
Definition fold_dist (box d : R) : R :=
  let dr := Rabs d in if ltb (s64 (/ 2 * box)) dr then s64 (box - dr) else dr.

(** index_table.cpp:70-87; the arguments are the doubles [first-lproj] and [second-lproj2] of index_table.cpp:44. *)
Definition calc_dr2 (box d1 d2 : R) : R :=
  let a := fold_dist box (s64 d1) in
  let b := fold_dist box (s64 d2) in
  s64 (s64 (a * a) + s64 (b * b)).

(** Body of the loop of get_nearby_from_range, index_table.cpp:26-48; [hh*hh] is a float.  [nth_error] failing corresponds to an out of
    bounds read of [axis]/[cofm]. *)
Definition visit_line (box : R) (ls : list sightline) (p : particle) (first : R) (acc : option (imap R)) (e : R * nat)
  : option (imap R) :=
  match acc, nth_error ls (snd e) with
  | Some nearby, Some l =>
      let second := if (l_axis l =? 3)%Z then p_y p else p_z p in
      let lproj2 := if (l_axis l =? 3)%Z then l_y l else l_z l in
      let lproj := fst e in
      if second_close box second lproj2 (p_h p) then
        let dr2 := calc_dr2 box (first - lproj) (second - lproj2) in
        if leb dr2 (s32 (p_h p * p_h p))
        then Some (map_assign (Z.of_nat (snd e)) dr2 nearby)
        else Some nearby
      else Some nearby
  | _, _ => None
  end.

(** index_table.cpp:22-50. *)
Definition get_nearby_from_range (box : R) (ls : list sightline) (p : particle) (first : R)
    (m : multimap) (low high : nat) (nearby : option (imap R)) : option (imap R) :=
  match iter_range m low high with
  | None => None
  | Some es => fold_left (visit_line box ls p first) es nearby
  end.

(** index_table.cpp:89-113: [ffp-=boxsize] is computed as a double and stored as a float. *)
Definition get_nearby (box : R) (ls : list sightline) (p : particle) (first : R)
    (m : multimap) (nearby : option (imap R)) : option (imap R) :=
  let ffp0 := s32 (first + p_h p) in
  let ffp := if ltb box ffp0 then s32 (s64 (ffp0 - box)) else ffp0 in
  let ffm0 := s32 (first - p_h p) in
  let ffm := if ltb ffm0 0 then s32 (s64 (ffm0 + box)) else ffm0 in
  let low := lower_bound m ffm in
  let high := lower_bound m ffp in
  if leb ffm ffp then get_nearby_from_range box ls p first m low high nearby
  else
    get_nearby_from_range box ls p first m low (length m)
      (get_nearby_from_range box ls p first m 0 high nearby).

(** index_table.cpp:117-127. *)
Definition get_near_lines (box : R) (ls : list sightline) (p : particle) : option (imap R) :=
  let t := build_table 0 ls [] in
  let txx := build_table_xx 0 ls [] in
  let n0 := Some [] in
  let n1 := match t with [] => n0 | _ => get_nearby box ls p (p_x p) t n0 end in
  match txx with [] => n1 | _ => get_nearby box ls p (p_y p) txx n1 end.

(** py_module.cpp:73-82: the body of one iteration of the parallel loop of Py_near_lines. *)
Definition near_lines_step (box : R) (ls : list sightline) (ps : list particle)
    (s : option (list Z)) (i : nat) : option (list Z) :=
  match s, nth_error ps i with
  | Some s, Some p =>
      match get_near_lines box ls p with
      | None => None
      | Some [] => Some s
      | Some _ => Some (set_insert (to_int32 (Z.of_nat i)) s)
      end
  | _, _ => None
  end.

(** py_module.cpp:65-89: the loop run in the order [order] chosen by the OpenMP scheduler. *)
Definition py_near_lines (box : R) (ls : list sightline) (ps : list particle) (order : list nat) : option (list Z) :=
  fold_left (near_lines_step box ls ps) order (Some []).

(** index_table.cpp:143-146: the pairs found for particle [i] go to the lists of the lines. *)
Fixpoint update_nth {A} (n : nat) (f : A -> A) (l : list A) : list A :=
  match l, n with
  | [], _ => []
  | a :: l', O => f a :: l'
  | a :: l', S n' => a :: update_nth n' f l'
  end.

(** index_table.cpp:140-147, the critical section. *)
Definition insert_particle (i : nat) (lists : list (imap R)) (nearby : imap R) : list (imap R) :=
  fold_left (fun acc e =>
      update_nth (Z.to_nat (fst e)) (map_insert (to_int32 (Z.of_nat i)) (snd e)) acc)
    nearby lists.

(** index_table.cpp:136-148: one iteration of the parallel loop of get_near_particles. *)
Definition near_particles_step (box : R) (ls : list sightline) (ps : list particle)
    (s : option (list (imap R))) (i : nat) : option (list (imap R)) :=
  match s, nth_error ps i with
  | Some lists, Some p =>
      match get_near_lines box ls p with
      | None => None
      | Some nearby => Some (insert_particle i lists nearby)
      end
  | _, _ => None
  end.

(** index_table.cpp:130-150, with the loop order chosen by the scheduler. *)
Definition get_near_particles (box : R) (ls : list sightline) (ps : list particle) (order : list nat)
  : option (list (imap R)) :=
  fold_left (near_particles_step box ls ps) order (Some (map (fun _ => []) ls)).
