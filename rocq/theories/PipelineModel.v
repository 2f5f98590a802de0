(** Model of the interpolation of a particle list onto all sightlines:
    fake_spectra/part_int.cpp:20-84 (compute_tau, compute_colden),
    the output array of fake_spectra/py_module.cpp:Py_Particle_Interpolation (177-221), and
    the loop over snapshot segments of fake_spectra/spectra.py (compute_spectra and
    _interpolate_single_file, _read_particle_data).

    Particle and sightline coordinates are integer multiples of a length [su_unit]
    (see IndexModel); velocities, densities, temperatures and pixels are real numbers. *)
From Coq Require Import ZArith List Reals.
From Verif Require Import Containers IndexModel AbsorptionModel VoronoiModel.
Import ListNotations.
Local Open Scope R_scope.

(** One entry of each of the arrays Pos, h, Vel, Dens, temp. *)
Record gas := mkGas { g_part : particle; g_vel : R * R * R; g_dens : R; g_temp : R }.

(** compute_tau or compute_colden. *)
Inductive quantity := Depth | Column.

(** The constructor arguments of ParticleInterp (part_int.h:30-46), and the Voigt profile of the
    external Faddeeva code (any function). *)
Record setup := mkSetup {
  su_kern : kern; su_unit : R; su_box : Z; su_nbins : nat; su_line : AbsorptionModel.line;
  su_profile : R -> R -> R }.

(** The position of a particle. *)
Definition g_pos (g : gas) : Z * Z * Z := (p_x (g_part g), p_y (g_part g), p_z (g_part g)).

(** Pos[idx] or Vel[idx]: the arrays of three-vectors are stored one after the other;
    [None] is a read outside the array. *)
Definition flat {A} (sel : gas -> A * A * A) (gs : list gas) (idx : Z) : option A :=
  if (idx <? 0)%Z then None
  else match nth_error gs (Z.to_nat (idx / 3)) with
       | None => None
       | Some g => let '(a, b, c) := sel g in
                   Some (if (idx mod 3 =? 0)%Z then a else if (idx mod 3 =? 1)%Z then b else c)
       end.

(** Dens[ipart], h[ipart], temp[ipart] *)
Definition at_part (gs : list gas) (ipart : Z) : option gas :=
  if (ipart <? 0)%Z then None else nth_error gs (Z.to_nat ipart).

(** part_int.cpp:38-45 and 70-78: one particle, given the two numbers passed in the place of dr2
    and h.  The index 3*ipart+axis-1 is computed with int. *)
Definition add_one (qu : quantity) (su : setup) (gs : list gas) (axis : Z)
    (t : Z * (R * R)) (arr : list R) : option (list R) :=
  let '(ipart, (d, s)) := t in
  let L := su_line su in
  let n := Z.of_nat (su_nbins su) in
  match at_part gs ipart, flat g_pos gs (to_int32 (3 * ipart + axis - 1)) with
  | Some g, Some c =>
      match qu with
      | Column => add_colden_particle (su_kern su) (vbox L) (velfac L) n d (g_dens g)
                    (su_unit su * IZR c) s arr
      | Depth =>
          match flat g_vel gs (to_int32 (3 * ipart + axis - 1)) with
          | None => None
          | Some v => add_tau_particle (su_profile su) L (su_kern su) n d (g_dens g)
                        (su_unit su * IZR c) v (g_temp g) s arr
          end
      end
  | _, _ => None
  end.

(** index_table.cpp:179-183: the coordinates of a cell, along the line first. *)
Definition cell_of (su : setup) (gs : list gas) (axis ipart : Z) : option cell :=
  match flat g_pos gs (to_int32 (3 * ipart + axis - 1)),
        flat g_pos gs (to_int32 (3 * ipart + axis mod 3)),
        flat g_pos gs (to_int32 (3 * ipart + (axis + 1) mod 3)) with
  | Some a, Some b, Some c =>
      Some (mkCell (su_unit su * IZR a) (su_unit su * IZR b) (su_unit su * IZR c))
  | _, _, _ => None
  end.

(** cofm[3*line_i + k] *)
Definition line_coord (l : sightline) (k : Z) : Z :=
  if (k =? 0)%Z then l_x l else if (k =? 1)%Z then l_y l else l_z l.

(** A loop that fails if one of its steps fails (helper). *)
Fixpoint all_some {A} (l : list (option A)) : option (list A) :=
  match l with
  | [] => Some []
  | None :: _ => None
  | Some a :: l' => option_map (cons a) (all_some l')
  end.

(** part_int.cpp:29-46: the numbers passed for each particle near the line, in the order of the
    std::map.  [None]: a read outside an array, or exit(1). *)
Definition line_targets (su : setup) (gs : list gas) (l : sightline) (near : imap Z)
  : option (list (Z * (R * R))) :=
  match su_kern su with
  | Voronoi =>
      match all_some (map (fun e => cell_of su gs (l_axis l) (fst e)) near) with
      | None => None
      | Some cs =>
          match assign_cells (su_unit su * IZR (su_box su))
                  (su_unit su * IZR (line_coord l (l_axis l mod 3)))
                  (su_unit su * IZR (line_coord l ((l_axis l + 1) mod 3))) cs with
          | Segments segs => Some (combine (map fst near) segs)
          | _ => None
          end
      end
  | _ =>
      all_some (map (fun e => match at_part gs (fst e) with
         | None => None
         | Some g => Some (fst e, (su_unit su * su_unit su * IZR (snd e),
                                   su_unit su * IZR (p_h (g_part g))))
         end) near)
  end.

(** part_int.cpp:33-48: the loop over the particles near one line, on the array [arr] starting at
    tau[i*nbins]. *)
Definition run_line (qu : quantity) (su : setup) (gs : list gas) (l : sightline) (near : imap Z)
    (arr : list R) : option (list R) :=
  match line_targets su gs l near with
  | None => None
  | Some ts => fold_left (fun acc t => match acc with
                 | None => None | Some a => add_one qu su gs (l_axis l) t a end) ts (Some arr)
  end.

(** &tau[i*nbins]: an unsigned int product. *)
Definition line_offset (su : setup) (i : nat) : nat :=
  Z.to_nat ((Z.of_nat i * Z.of_nat (su_nbins su)) mod 2 ^ 32).

(** Run f on the array starting at an offset of the whole array; f may reach any later pixel. *)
Definition at_offset (off : nat) (f : list R -> option (list R)) (arr : list R) : option (list R) :=
  option_map (app (firstn off arr)) (f (skipn off arr)).

(** part_int.cpp:26-50: the parallel loop over lines, here with each iteration atomic and in the
    order [order]; see [line_events] for interleavings of the single additions. *)
Definition loop_lines (qu : quantity) (su : setup) (ls : list sightline) (gs : list gas)
    (lists : list (imap Z)) (order : list nat) (arr : list R) : option (list R) :=
  fold_left (fun acc i =>
      match acc, nth_error ls i, nth_error lists i with
      | Some a, Some l, Some near => at_offset (line_offset su i) (run_line qu su gs l near) a
      | _, _, _ => None
      end) order (Some arr).

(** part_int.cpp:20-84 called on a zeroed array (py_module.cpp:196-215). *)
Definition interpolate (qu : quantity) (su : setup) (ls : list sightline) (gs : list gas)
    (order_parts order_lines : list nat) : option (list R) :=
  match get_near_particles (su_box su) ls (map g_part gs) order_parts with
  | None => None
  | Some lists => loop_lines qu su ls gs lists order_lines (repeat 0 (length ls * su_nbins su))
  end.

(** ** The additions to memory made by one line *)

(** One addition: pixel (relative to the start of the line) and value. *)
Definition event := (Z * R)%type.

(** absorption.cpp:177 and 227: a particle which is passed over. *)
Definition skips (k : kern) (vbox velfac dr2 smooth : R) : bool :=
  match k with
  | Voronoi => if Rlt_dec (2 * vbox / velfac) dr2 then true
               else if Rlt_dec (2 * vbox / velfac) smooth then true else false
  | _ => if Rle_dec (smooth * smooth - dr2) 0 then true else false
  end.

(** The additions of AbsorptionModel.add_colden_particle (absorption.cpp:167-210), in order. *)
Definition colden_events (k : kern) (vbox velfac : R) (nbins : Z) (dr2 dens pos smooth : R)
  : list event :=
  if skips k vbox velfac dr2 smooth then []
  else
    let pos1 := match k with Voronoi => (dr2 + smooth) / 2 | _ => pos end in
    let zrange := match k with Voronoi => (smooth - dr2) / 2 | _ => sqrt (smooth * smooth - dr2) end in
    let boxtokpc := vbox / IZR nbins / velfac in
    let zlow := Flocq.Core.Raux.Zfloor ((pos1 - zrange) / boxtokpc) in
    let zhigh := Flocq.Core.Raux.Zceil ((pos1 + zrange) / boxtokpc) in
    map (fun z => (wrap_index z nbins,
           let plow := boxtokpc * IZR z - pos1 in
           dens * kern_frac k plow (plow + boxtokpc) smooth dr2 zrange))
        (zrange_up zlow (Z.to_nat (zhigh - zlow + 1))).

(** The additions of tau_loop (absorption.cpp:250-278), in order. *)
Fixpoint tau_loop_events (nbins : Z) (tautail : R) (value : Z -> R) (zs : list Z) : list event :=
  match zs with
  | [] => []
  | z :: zs' => (wrap_index z nbins, value z) ::
      (if Rlt_dec (value z) tautail then [] else tau_loop_events nbins tautail value zs')
  end.

(** The additions of AbsorptionModel.add_tau_particle (absorption.cpp:212-279), in order. *)
Definition tau_events (profile : R -> R -> R) (L : AbsorptionModel.line) (k : kern) (nbins : Z)
    (dr2 dens ppos pvel temp smooth : R) : list event :=
  let btherm := bfac L * sqrt temp in
  if skips k (vbox L) (velfac L) dr2 smooth then []
  else
    let pos1 := match k with Voronoi => (dr2 + smooth) / 2 | _ => ppos end in
    let vel := velfac L * pos1 + pvel in
    let val1 := match k with Voronoi => velfac L * dr2 | _ => velfac L * dr2 * velfac L end in
    let bintov := vbox L / IZR nbins in
    let amp := sigma_a L / sqrt PI * (light_kms / btherm) in
    let zmax := Flocq.Core.Raux.Zfloor (vel / bintov) in
    let value := fun z =>
      let vlow := IZR z * bintov - vel in
      amp * dens * tau_kern_outer profile k btherm val1 (velfac L * smooth) (voigt_fac L / btherm)
                     vlow (vlow + bintov) / velfac L in
    let half := Z.to_nat (Z.quot nbins 2) in
    tau_loop_events nbins (tautail L) value (zrange_up zmax half) ++
    tau_loop_events nbins (tautail L) value (zrange_down (zmax - 1) half).

(** The additions of add_one. *)
Definition one_events (qu : quantity) (su : setup) (gs : list gas) (axis : Z) (t : Z * (R * R))
  : option (list event) :=
  let '(ipart, (d, s)) := t in
  let L := su_line su in
  let n := Z.of_nat (su_nbins su) in
  match at_part gs ipart, flat g_pos gs (to_int32 (3 * ipart + axis - 1)) with
  | Some g, Some c =>
      match qu with
      | Column => Some (colden_events (su_kern su) (vbox L) (velfac L) n d (g_dens g)
                    (su_unit su * IZR c) s)
      | Depth =>
          match flat g_vel gs (to_int32 (3 * ipart + axis - 1)) with
          | None => None
          | Some v => Some (tau_events (su_profile su) L (su_kern su) n d (g_dens g)
                        (su_unit su * IZR c) v (g_temp g) s)
          end
      end
  | _, _ => None
  end.

(** The additions of one line, as absolute pixel numbers. *)
Definition line_events (qu : quantity) (su : setup) (gs : list gas) (i : nat) (l : sightline)
    (near : imap Z) : option (list event) :=
  match line_targets su gs l near with
  | None => None
  | Some ts =>
      match all_some (map (one_events qu su gs (l_axis l)) ts) with
      | None => None
      | Some evs => Some (map (fun e => (Z.of_nat (line_offset su i) + fst e, snd e)%Z) (concat evs))
      end
  end.

(** One addition made with any operation in the place of the floating point one. *)
Fixpoint apply_nth (op : R -> R -> R) (j : nat) (v : R) (arr : list R) : option (list R) :=
  match arr, j with
  | [], _ => None
  | x :: t, O => Some (op x v :: t)
  | x :: t, S j' => option_map (cons x) (apply_nth op j' v t)
  end.
(** The same for an index of type int. *)
Definition apply_event (op : R -> R -> R) (acc : option (list R)) (e : event) : option (list R) :=
  match acc with
  | None => None
  | Some a => if (fst e <? 0)%Z then None else apply_nth op (Z.to_nat (fst e)) (snd e) a
  end.
(** All additions, in this order. *)
Definition apply_events (op : R -> R -> R) (evs : list event) (arr : list R) : option (list R) :=
  fold_left (apply_event op) evs (Some arr).

(** ** The loop over segments *)

(** spectra.py:550-617 (restricted to the selection of particles): keep those near some sightline,
    and for metal ions (spectra.py:597-610) those with positive density.  An index beyond the
    array raises. *)
Definition read_particles (positive_only : bool) (su : setup) (ls : list sightline) (gs : list gas)
    (order : list nat) : option (list gas) :=
  match py_near_lines (su_box su) ls (map g_part gs) order with
  | None => None
  | Some ind =>
      match all_some (map (at_part gs) ind) with
      | None => None
      | Some kept => Some (if positive_only
                           then filter (fun g => if Rlt_dec 0 (g_dens g) then true else false) kept
                           else kept)
      end
  end.

(** spectra.py:501-548 without load_all_data_first: an empty selection gives zeros. *)
Definition interpolate_segment (qu : quantity) (positive_only : bool) (su : setup)
    (ls : list sightline) (gs : list gas) (orders : list nat * (list nat * list nat))
  : option (list R) :=
  match read_particles positive_only su ls gs (fst orders) with
  | None => None
  | Some [] => Some (repeat 0 (length ls * su_nbins su))
  | Some kept => interpolate qu su ls kept (fst (snd orders)) (snd (snd orders))
  end.

(** spectra.py:503-526 with load_all_data_first: the selections of all segments one after the
    other (an empty one is skipped). *)
Definition load_all (positive_only : bool) (su : setup) (ls : list sightline)
    (segs : list (list gas * list nat)) : option (list gas) :=
  option_map (@concat gas)
    (all_some (map (fun s => read_particles positive_only su ls (fst s) (snd s)) segs)).
(** spectra.py:503-526, with the definition above. *)
Definition interpolate_loaded (qu : quantity) (positive_only : bool) (su : setup)
    (ls : list sightline) (segs : list (list gas * list nat)) (op ol : list nat)
  : option (list R) :=
  match load_all positive_only su ls segs with
  | None => None
  | Some [] => Some (repeat 0 (length ls * su_nbins su))
  | Some kept => interpolate qu su ls kept op ol
  end.

(** result += next, spectra.py:compute_spectra. *)
Fixpoint add_arrays (a b : list R) : list R :=
  match a, b with
  | x :: a', y :: b' => x + y :: add_arrays a' b'
  | _, _ => []
  end.

(** A segment with the loop orders of its three parallel loops. *)
Definition segment := (list gas * (list nat * (list nat * list nat)))%type.

(** spectra.py:812-826: segment 0, then the remaining ones added one by one. *)
Definition compute_rank (qu : quantity) (positive_only : bool) (su : setup) (ls : list sightline)
    (first : segment) (rest : list segment) : option (list R) :=
  let seg s := interpolate_segment qu positive_only su ls (fst s) (snd s) in
  fold_left (fun acc s => match acc, seg s with
      | Some a, Some b => Some (add_arrays a b)
      | _, _ => None
      end) rest (seg first).

(** spectra.py:827-831: the sum over all MPI ranks, reduced in any order [ranks]. *)
Definition compute_spectra (qu : quantity) (positive_only : bool) (su : setup) (ls : list sightline)
    (ranks : list (segment * list segment)) : option (list R) :=
  fold_left (fun acc r => match acc, compute_rank qu positive_only su ls (fst r) (snd r) with
      | Some a, Some b => Some (add_arrays a b)
      | _, _ => None
      end) ranks (Some (repeat 0 (length ls * su_nbins su))).
