(** Model of the merging of fitted absorbers into systems (fake_spectra/voigtfit.py:238-274). *)
From Coq Require Import ZArith List Bool QArith Qround.
Import ListNotations.
Local Open Scope Z_scope.

(** Outcomes: the merged arrays, the AssertionError of lines 255 and 273, the IndexError of
    an empty fit (line 250), or running out of loop fuel. *)
Inductive systems_result :=
| Systems (colden : list Z) (pos : list Q)
| SysAssertion
| SysIndexError
| SysDiverges.

(** numpy delete of one index. *)
Definition np_delete {A} (l : list A) (i : nat) : list A := firstn i l ++ skipn (S i) l.

(** l[i] = f(l[i]). *)
Definition update {A} (l : list A) (i : nat) (f : A -> A) : list A :=
  firstn i l ++ match skipn i l with x :: t => f x :: t | [] => [] end.

(** numpy argmin: index of the first smallest element. *)
Fixpoint argmin_from (l : list Z) (best : Z) (ibest i : nat) : nat :=
  match l with
  | [] => ibest
  | x :: t => if x <? best then argmin_from t x i (S i) else argmin_from t best ibest (S i)
  end.
(** np.argmin. *)
Definition argmin (l : list Z) : nat :=
  match l with [] => 0%nat | x :: t => argmin_from t x 0 1 end.

(** numpy min. *)
Definition minimum (l : list Z) : Z :=
  match l with [] => 0 | x :: t => fold_left Z.min t x end.

(** The difference of two arrays. *)
Definition subtract (a b : list Z) : list Z := map (fun p => fst p - snd p) (combine a b).

(** Floating remainder x % w for a positive modulus. *)
Definition qmod (x w : Q) : Q := (x - w * inject_Z (Qfloor (x / w)))%Q.

(** voigtfit.py:257-273.  Positions of the fitted peaks and the wavelength range are integers;
    the averaged positions of the merged systems are rationals. *)
Fixpoint merge_loop (fuel : nat) (w close : Z) (colden : list Z) (pos : list Q)
  (maxpos minpos : list Z) : systems_result :=
  let distances := subtract minpos maxpos in
  if minimum distances <? close then
    match fuel with
    | O => SysDiverges
    | S fuel' =>
        let minn := argmin distances in
        let n := length distances in
        let is_last := Nat.eqb minn (n - 1) in
        let dst := if is_last then 0%nat else S minn in
        let psrc := nth minn pos 0%Q in
        let pos1 :=
          if is_last then
            update pos dst (fun p => qmod ((psrc + p + inject_Z w) / 2)%Q (inject_Z w))
          else update pos dst (fun p => ((psrc + p) / 2)%Q) in
        let colden1 := update colden dst (fun c => c + nth minn colden 0) in
        let colden2 := np_delete colden1 minn in
        let pos2 := np_delete pos1 minn in
        let maxpos2 := np_delete maxpos minn in
        let minpos2 := np_delete minpos minn in
        if Nat.ltb (length pos2) 2 then Systems colden2 pos2
        else if forallb (fun d => 0 <? d) (subtract minpos2 maxpos2) then
          merge_loop fuel' w close colden2 pos2 maxpos2 minpos2
        else SysAssertion
    end
  else Systems colden pos.

(** Insertion of a component by position, for the sort of voigtfit.py:243-247.  Equal positions
    make the assertion of line 255 fail, so the order of ties does not matter. *)
Fixpoint insert_comp (c : Z * Z) (l : list (Z * Z)) : list (Z * Z) :=
  match l with
  | [] => [c]
  | d :: t => if fst c <=? fst d then c :: l else d :: insert_comp c t
  end.
(** voigtfit.py:243-247, with the definition above. *)
Definition sort_comps (l : list (Z * Z)) : list (Z * Z) := fold_right insert_comp [] l.

(** numpy roll by -1. *)
Definition roll_left (l : list Z) : list Z := match l with [] => [] | x :: t => t ++ [x] end.

(** voigtfit.py:238-274; [comps] are (position, column density) pairs in fit order, [w] is
    np.max(self.wavelengths). *)
Definition get_systems (w close : Z) (comps : list (Z * Z)) : systems_result :=
  let s := sort_comps comps in
  match s with
  | [] => SysIndexError
  | _ =>
      let pos := map fst s in
      let maxpos := update pos (length pos - 1) (fun p => p - w) in
      let minpos := roll_left pos in
      if forallb (fun d => 0 <? d) (subtract minpos maxpos) then
        merge_loop (length s) w close (map snd s) (map inject_Z pos) maxpos minpos
      else SysAssertion
  end.
