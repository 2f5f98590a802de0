(** Model of Spectra.replace_not_DLA and filter_DLA, fake_spectra/spectra.py:713-770.

    [P]: positions of sightlines; [col p a]: the column densities computed by compute_spectra for the
    sightline at p along the axis a (spectra.py:801-831, modelled in the Pipeline part); [gen]: the positions
    returned by successive calls of get_cofm, gen 0 being the initial ones.  Floats are real numbers. *)
From Coq Require Import ZArith List Reals Arith.
From Verif Require Import AbsorptionSpec FilterModel.
Import ListNotations.
Local Open Scope R_scope.

(** spectra.py:761-770: one-sided or two-sided threshold. *)
Inductive threshold := Above (t : R) | Between (lo hi : R).

(** The comparison of a column density with the threshold, spectra.py:761-770. *)
Definition over (th : threshold) (cdsum : R) : bool :=
  match th with
  | Above t => if Rlt_dec t cdsum then true else false
  | Between lo hi => if Rlt_dec lo cdsum then if Rlt_dec cdsum hi then true else false else false
  end.

(** numpy: buf[lo:hi] = src for lo <= hi, along the first dimension.  [None] in the buffer is uninitialised
    memory of np.empty_like.  A source of one row is broadcast; any other mismatch is a ValueError. *)
Definition assign_rows {X : Type} (buf : list (option X)) (lo hi : nat) (src : list X) : option (list (option X)) :=
  let k := (min hi (length buf) - min lo (length buf))%nat in
  let put rows := firstn lo buf ++ map Some rows ++ skipn hi buf in
  if Nat.eqb (length src) k then Some (put src)
  else match src with
       | [x] => Some (put (repeat x k))
       | _ => None
       end.

Section Replace.
Variable P : Type.
Variable col : P -> Z -> list R.

(** The sightlines of one batch above the threshold, with their column densities: spectra.py:725-726, 738-739. *)
Definition filter_DLA (th : threshold) (axis : list Z) (cofm : list P) : list (P * list R) :=
  filter (fun s => over th (rsum (snd s))) (map (fun pa => (fst pa, col (fst pa) (snd pa))) (combine cofm axis)).

(** The local variables of the loop, spectra.py:725-745. *)
Record state := { found : nat; discarded : nat; top : nat;
                  cofm_buf : list (option P); h1_buf : list (option (list R)) }.

(** spectra.py:729-733 and 741-745: store what was found in one batch. *)
Definition store (wanted numlos : nat) (ind : list (P * list R)) (s : state) : option state :=
  let t := min wanted (found s + length ind) in
  let rows := firstn (t - found s) ind in
  match assign_rows (cofm_buf s) (found s) t (map fst rows),
        assign_rows (h1_buf s) (found s) t (map snd rows) with
  | Some cb, Some hb =>
      Some {| found := found s + length ind; discarded := discarded s + (numlos - length ind); top := t;
              cofm_buf := cb; h1_buf := hb |}
  | _, _ => None
  end.

(** What is left in the object: spectra.py:748-755.  [new_colden] is stored under the key ("H", 1). *)
Record result := { new_cofm : list (option P); new_axis : list Z; new_colden : list (option (list R));
                   new_discarded : nat; new_numlos : nat }.

(** spectra.py:748-755, after the loop *)
Definition finish (wanted : nat) (axis : list Z) (s : state) : outcome result :=
  if Nat.eqb (found s) 0 then Raises   (* ZeroDivisionError *)
  else Done {| new_cofm := cofm_buf s; new_axis := firstn wanted axis; new_colden := firstn (top s) (h1_buf s);
               new_discarded := (discarded s * wanted) / found s; new_numlos := wanted |}.

(** spectra.py:735-746: the loop; [j]: the next batch. *)
Fixpoint more (fuel : nat) (th : threshold) (wanted : nat) (axis : list Z) (gen : nat -> list P) (j : nat) (s : state)
  : outcome result :=
  if Nat.ltb (found s) wanted then
    match fuel with
    | O => Running
    | S fuel' =>
        match store wanted (length axis) (filter_DLA th axis (gen j)) s with
        | Some s' => more fuel' th wanted axis gen (S j) s'
        | None => Raises
        end
    end
  else finish wanted axis s.

(** spectra.py:713-755 *)
Definition replace_not_DLA (fuel : nat) (th : threshold) (ndla : nat) (axis : list Z) (gen : nat -> list P) : outcome result :=
  let start := {| found := 0; discarded := 0; top := 0;
                  cofm_buf := firstn ndla (repeat None (length (gen O)));
                  h1_buf := repeat None (length (gen O)) |} in
  match store ndla (length axis) (filter_DLA th axis (gen O)) start with
  | Some s => more fuel th ndla axis gen 1 s
  | None => Raises
  end.
End Replace.
Arguments new_cofm {P}. Arguments new_axis {P}. Arguments new_colden {P}.
Arguments new_discarded {P}. Arguments new_numlos {P}.
