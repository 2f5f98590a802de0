(** Model of helpers acting on sets of sightlines: the regular grid
    (fake_spectra/griddedspectra.py), the projection (fake_spectra/spectra.py:1204-1217), rolling
    to the peak (fake_spectra/spec_utils.py:27-43) and section renormalisation
    (fake_spectra/spectra.py:1411-1449). *)
From Coq Require Import ZArith List Bool Reals.
From Flocq Require Import Core.Raux.
Import ListNotations.

(** ** The regular grid *)

Definition triple := (nat * nat * nat)%type.

(** griddedspectra.py:72-77 etc.: [f nn mm for nn in range(nspec) for mm in range(nspec)]. *)
Definition grid_ids (f : nat -> nat -> triple) (nspec : nat) : list triple :=
  flat_map (fun nn => map (fun mm => f nn mm) (seq 0 nspec)) (seq 0 nspec).

(** griddedspectra.py:72 *)
Definition id_1 (nn mm : nat) : triple := (0, nn, mm)%nat.
(** griddedspectra.py:74 *)
Definition id_2 (nn mm : nat) : triple := (nn, 0, mm)%nat.
(** griddedspectra.py:76 *)
Definition id_3 (nn mm : nat) : triple := (nn, mm, 0)%nat.

(** griddedspectra.py:88: dx * grid_id. *)
Definition scale_id (dx : R) (t : triple) : R * R * R :=
  match t with (i, j, k) => (dx * INR i, dx * INR j, dx * INR k)%R end.

(** griddedspectra.py:59-88.  [None] is the ValueError for a wrong axis.  For nspec = 0 the box
    (a numpy number) divided by zero is an infinity times an empty array. *)
Definition get_axes_and_cofm (box : R) (nspec : nat) (axis : Z)
  : option (list Z * list (R * R * R)) :=
  let n2 := (nspec * nspec)%nat in
  let grid_axes :=
    if (axis <? 0)%Z then repeat 1%Z n2 ++ repeat 2%Z n2 ++ repeat 3%Z n2
    else repeat axis n2 in
  let grid_id :=
    if (axis =? 1)%Z then Some (grid_ids id_1 nspec)
    else if (axis =? 2)%Z then Some (grid_ids id_2 nspec)
    else if (axis =? 3)%Z then Some (grid_ids id_3 nspec)
    else if (axis <? 0)%Z then
      Some (grid_ids id_1 nspec ++ grid_ids id_2 nspec ++ grid_ids id_3 nspec)
    else None in
  match grid_id with
  | None => None
  | Some ids => Some (grid_axes, map (scale_id (box / INR nspec)%R) ids)
  end.

(** ** Projection *)

(** Result of get_spectra_proj_pos: positions, the ValueError of line 1207, the IndexError of
    an empty axis array, or the UnboundLocalError when the axis is none of 1, 2, 3. *)
Inductive proj_result (A : Type) :=
| ProjPos (spos : list (A * A))
| ProjMixed
| ProjNoSightlines
| ProjUnbound.
Arguments ProjPos {A}. Arguments ProjMixed {A}. Arguments ProjNoSightlines {A}. Arguments ProjUnbound {A}.

(** spectra.py:1204-1217.  [np.mean(axis) != axis[0]] is compared as sum <> n * axis[0]. *)
Definition get_spectra_proj_pos {A} (axis : list Z) (cofm : list (A * A * A)) : proj_result A :=
  match axis with
  | [] => ProjNoSightlines
  | a0 :: _ =>
      if negb (fold_right Z.add 0%Z axis =? Z.of_nat (length axis) * a0)%Z
         || negb (a0 =? last axis 0)%Z then ProjMixed
      else if (a0 =? 1)%Z then ProjPos (map (fun c => (snd (fst c), snd c)) cofm)
      else if (a0 =? 2)%Z then ProjPos (map (fun c => (fst (fst c), snd c)) cofm)
      else if (a0 =? 3)%Z then ProjPos (map (fun c => fst c) cofm)
      else ProjUnbound
  end.

(** ** Rolling *)

(** numpy max; [None] for an empty array (ValueError). *)
Definition list_max (l : list Z) : option Z :=
  match l with [] => None | x :: t => Some (fold_left Z.max t x) end.

(** First index at which the value occurs: np.where(l == v)[0][0]. *)
Fixpoint first_index (v : Z) (l : list Z) : option nat :=
  match l with
  | [] => None
  | x :: t => if (x =? v)%Z then Some 0%nat else option_map S (first_index v t)
  end.

(** numpy roll: element i of the result is element (i - shift) mod n of the argument. *)
Definition np_roll (l : list Z) (shift : Z) : list Z :=
  map (fun i => nth (Z.to_nat ((Z.of_nat i - shift) mod Z.of_nat (length l))) l 0%Z)
    (seq 0 (length l)).

(** spec_utils.py:37-43. *)
Definition roll_one_spectra (tau : list Z) : option (Z * list Z) :=
  match list_max tau with
  | None => None
  | Some max_t =>
      match first_index max_t tau with
      | None => None
      | Some ind_m =>
          let roll := (Z.of_nat (length tau / 2) - Z.of_nat ind_m)%Z in
          Some (roll, np_roll tau roll)
      end
  end.

(** spec_utils.py:32: the comprehension. *)
Fixpoint roll_rows (tau : list (list Z)) : option (list (Z * list Z)) :=
  match tau with
  | [] => Some []
  | row :: rows =>
      match roll_one_spectra row, roll_rows rows with
      | Some r, Some rs => Some (r :: rs)
      | _, _ => None
      end
  end.

(** spec_utils.py:27-35 (the shape assertions hold because every row is rolled).  No row at all is a ValueError: the zip of
    line 32 then has nothing to unpack. *)
Definition get_rolled_spectra (tau : list (list Z)) : option (list (Z * list Z)) :=
  match tau with [] => None | _ :: _ => roll_rows tau end.

(** ** Renormalisation *)
Local Open Scope R_scope.

(** np.max of a row; of an empty row it raises. *)
Definition row_max (l : list R) : option R :=
  match l with [] => None | x :: t => Some (fold_left Rmax t x) end.

(** Python slice l[a:b]. *)
Definition py_slice {A} (a b : nat) (l : list A) : list A := firstn (b - a) (skipn a l).

(** spectra.py:1441-1445: one section of one sightline.  [None] for a shape mismatch, and for a
    section whose maximum is zero (numpy would fill it with nan). *)
Definition one_section (n_inds : nat) (row : list R) (i : nat) : option (list R) :=
  let sec := py_slice (i * n_inds) ((i + 1) * n_inds + 1) row in
  if Nat.eqb (length sec) (n_inds + 1) then
    match row_max sec with
    | Some m => if Req_EM_T m 0 then None else Some (map (fun x => x / m) sec)
    | None => None
    end
  else None.

(** A loop that fails if one of its steps fails (helper). *)
Fixpoint all_some {A} (l : list (option A)) : option (list A) :=
  match l with
  | [] => Some []
  | Some x :: t => match all_some t with Some r => Some (x :: r) | None => None end
  | None :: _ => None
  end.

(** spectra.py:1411-1449.  [npix] is flux.shape[1]. *)
Definition renormalize_flux (vmax velfac box section_size : R) (npix : nat) (flux : list (list R))
  : option (list (list R)) :=
  if Nat.eqb npix 1 then None   (* ZeroDivisionError *)
  else
    let vel_stepsize := vmax / (INR npix - 1) in
    if Rlt_dec section_size (vel_stepsize / velfac) then None
    else if Rlt_dec box section_size then None
    else
      let n_sections := box / section_size in
      let n_inds := Z.to_nat (Zfloor (vmax / (n_sections * vel_stepsize))) in
      all_some (flat_map (fun i => map (fun row => one_section n_inds row i) flux)
                  (seq 0 (Z.to_nat (Zfloor n_sections)))).
