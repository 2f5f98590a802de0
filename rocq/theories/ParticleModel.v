(** Model of the particle arrays that Spectra hands to the interpolation:
    spectra.py _read_particle_data, get_mass_frac, _filter_particles,
    _get_elem_den and the concatenation of segments in
    _interpolate_single_file.  Exact real arithmetic (the code rounds to 32 bit
    floats); a numpy array is a list, indexing past the end is an IndexError. *)
From Coq Require Import Reals List Bool ZArith Arith Lia Lra.
Import ListNotations.
Local Open Scope R_scope.

(** A position or velocity. *)
Definition vec := (R * R * R)%type.

(** The arrays of one segment of the snapshot (particle type 0): positions,
    smoothing lengths, peculiar velocities, hydrogen density of
    gasprop.get_code_rhoH, gasprop.get_temp, the mass fraction of the element
    asked for (a column of GFM_Metals, Metallicity or the primordial value, see
    spectra.py:695-707) and gasprop.get_reproc_HI. *)
Record segment := Segment {
  s_pos : list vec;
  s_hh : list R;
  s_vel : list vec;
  s_rho : list R;
  s_temp : list R;
  s_frac : list R;
  s_hi : list R
}.

(** numpy fancy indexing [arr[ind]]: [None] is the IndexError. *)
Fixpoint gather {A} (arr : list A) (ind : list nat) : option (list A) :=
  match ind with
  | [] => Some []
  | i :: ind' =>
      match nth_error arr i, gather arr ind' with
      | Some x, Some xs => Some (x :: xs)
      | _, _ => None
      end
  end.

(** [np.where(arr > 0)], counting from [i] *)
Fixpoint where_positive (i : nat) (arr : list R) : list nat :=
  match arr with
  | [] => []
  | x :: arr' => if Rlt_dec 0 x then i :: where_positive (S i) arr'
                 else where_positive (S i) arr'
  end.

(** An elementwise operation of two arrays. *)
Fixpoint zip (f : R -> R -> R) (a b : list R) : list R :=
  match a, b with
  | x :: a', y :: b' => f x y :: zip f a' b'
  | _, _ => []
  end.

(** spectra.py:588-589 [temp[np.where(temp <= 0)] = 1] *)
Definition fix_temp (t : R) : R := if Rle_dec t 0 then 1 else t.

(** spectra.py:709 [mass_frac[np.where(mass_frac <= 0)] = 0] *)
Definition fix_frac (f : R) : R := if Rle_dec f 0 then 0 else f.

(** Limits of the ionisation table. *)
Record bounds := Bounds { b_lo : R; b_hi : R }.

(** [np.max(a) > hi or np.min(a) < lo] for a non-empty array *)
Definition leaves (b : bounds) (a : list R) : bool :=
  existsb (fun x => if Rlt_dec (b_hi b) x then true else false) a
  || existsb (fun x => if Rlt_dec x (b_lo b) then true else false) a.

(** spectra.py:650-655 and 658-663: first the values above the upper limit are
    replaced, then those below the lower one. *)
Definition clamp_array (b : bounds) (a : list R) : list R :=
  if leaves b a then
    let a1 := map (fun x => if Rlt_dec (b_hi b) x then b_hi b else x) a in
    map (fun x => if Rlt_dec x (b_lo b) then b_lo b else x) a1
  else a.

(** The ionisation table: its limits and the ion fraction at a density and a
    temperature (external). *)
Record table := Table {
  t_temp : bounds;
  t_dens : bounds;
  t_ion : R -> R -> R
}.

(** spectra.py:637-664 _get_elem_den; the table is evaluated on each element. *)
Definition get_elem_den (tb : table) (den temp : list R) : list R :=
  zip (t_ion tb) (clamp_array (t_dens tb) den) (clamp_array (t_temp tb) temp).

(** The species asked for and the constants of the object: is the element
    hydrogen, the ion (-1 is all of the element), does the call compute optical
    depth, [rscale] and the atomic mass. *)
Record request := Request {
  r_hydrogen : bool;
  r_ion : Z;
  r_tau : bool;
  r_rscale : R;
  r_mass : R
}.

(** spectra.py:584, 522 *)
Definition needs_temp (q : request) : bool :=
  r_tau q || (negb (Z.eqb (r_ion q) (-1)) && negb (r_hydrogen q)).

(** The arrays given to the interpolation. *)
Record arrays := Arrays {
  a_pos : list vec;
  a_vel : list vec;
  a_den : list R;
  a_temp : list R;
  a_hh : list R
}.

(** The result of _read_particle_data: arrays, the tuple of False, or an
    IndexError. *)
Inductive read_result :=
| Read (a : arrays)
| Nothing
| IndexError.

(** An IndexError ends the function (helper). *)
Definition bind {A} (o : option A) (f : A -> read_result) : read_result :=
  match o with Some x => f x | None => IndexError end.

(** spectra.py:550-616 _read_particle_data, once the index list is known *)
Definition read_indexed (tb : table) (q : request) (s : segment) (ind : list nat)
  : read_result :=
  match ind with
  | [] => Nothing
  | _ =>
    bind (gather (s_pos s) ind) (fun pos =>
    bind (gather (s_hh s) ind) (fun hh =>
    bind (if r_tau q then gather (s_vel s) ind else Some [(0, 0, 0)]) (fun vel =>
    bind (gather (s_rho s) ind) (fun den =>
    bind (if needs_temp q then option_map (map fix_temp) (gather (s_temp s) ind)
          else Some [0]) (fun temp =>
    bind (gather (s_frac s) ind) (fun frac =>
    let elem_den := zip Rmult (map (fun d => d * r_rscale q) den) (map fix_frac frac) in
    if r_hydrogen q && Z.eqb (r_ion q) 1 then
      bind (gather (s_hi s) ind) (fun hi =>
      Read (Arrays pos vel (map (fun e => e / r_mass q) (zip Rmult elem_den hi)) temp hh))
    else if negb (Z.eqb (r_ion q) (-1)) then
      match where_positive 0 elem_den with
      | [] => Nothing
      | ind2 =>
        bind (gather temp ind2) (fun temp2 =>
        bind (gather pos ind2) (fun pos2 =>
        bind (gather hh ind2) (fun hh2 =>
        bind (if r_tau q then gather vel ind2 else Some vel) (fun vel2 =>
        bind (gather elem_den ind2) (fun elem2 =>
        bind (gather den ind2) (fun den2 =>
        Read (Arrays pos2 vel2
          (map (fun e => e / r_mass q) (zip Rmult elem2 (get_elem_den tb den2 temp2)))
          temp2 hh2)))))))
      end
    else Read (Arrays pos vel (map (fun e => e / r_mass q) elem_den) temp hh)))))))
  end.

(** ** The cached index lists *)

(** spectra.py:556-563: part_ind maps segments to index lists; it is used only
    once the sightlines are final.  [near] is particles_near_lines for the
    positions and smoothing lengths of the segment. *)
Definition cache := list (nat * list nat).

(** Access to the dictionary part_ind, spectra.py:556-563. *)
Fixpoint lookup (fn : nat) (c : cache) : option (list nat) :=
  match c with
  | [] => None
  | (k, v) :: c' => if Nat.eqb k fn then Some v else lookup fn c'
  end.

(** spectra.py:556-563 with the new dictionary *)
Definition find_index (near : list vec -> list R -> list nat) (final : bool)
  (c : cache) (fn : nat) (s : segment) : list nat * cache :=
  if final then
    match lookup fn c with
    | Some ind => (ind, c)
    | None => let ind := near (s_pos s) (s_hh s) in (ind, (fn, ind) :: c)
    end
  else (near (s_pos s) (s_hh s), c).

(** spectra.py:550-616 _read_particle_data *)
Definition read_particle_data (near : list vec -> list R -> list nat) (final : bool)
  (tb : table) (q : request) (c : cache) (fn : nat) (s : segment) : read_result * cache :=
  let (ind, c') := find_index near final c fn s in
  (read_indexed tb q s ind, c').

(** ** Several segments at once *)

(** spectra.py:507-526: one further segment is appended.  Velocities are
    appended when computing optical depth, temperatures when they are needed;
    otherwise the array of the first segment is kept. *)
Definition append_arrays (q : request) (a b : arrays) : arrays :=
  Arrays (a_pos a ++ a_pos b)
         (if r_tau q then a_vel a ++ a_vel b else a_vel a)
         (a_den a ++ a_den b)
         (if needs_temp q then a_temp a ++ a_temp b else a_temp a)
         (a_hh a ++ a_hh b).

(** spectra.py:507-526 with the cases of no particles and of an exception *)
Definition add_segment (q : request) (acc r : read_result) : read_result :=
  match acc, r with
  | IndexError, _ => IndexError
  | _, IndexError => IndexError
  | _, Nothing => acc
  | Nothing, _ => r
  | Read a, Read b => Read (append_arrays q a b)
  end.

(** spectra.py:501-526: the first segment followed by all others *)
Definition load_all_arrays (q : request) (first : read_result) (rest : list read_result)
  : read_result := fold_left (add_segment q) rest first.

(** ** A history of reads *)

(** One read: whether the sightlines were final (spectra.py:121, 754), the
    selection for the sightlines at that time, and what was asked for. *)
Record call := Call {
  k_final : bool;
  k_near : list vec -> list R -> list nat;
  k_table : table;
  k_request : request;
  k_segment : nat
}.

(** The results of a sequence of calls of _read_particle_data (spectra.py:550-616)
    on one object, starting with the cache [c]. *)
Fixpoint run_calls (segs : nat -> segment) (c : cache) (ks : list call) : list read_result :=
  match ks with
  | [] => []
  | k :: ks' =>
      let (r, c') := read_particle_data (k_near k) (k_final k) (k_table k) (k_request k) c
                       (k_segment k) (segs (k_segment k)) in
      r :: run_calls segs c' ks'
  end.
