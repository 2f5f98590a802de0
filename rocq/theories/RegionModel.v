(** Model of the absorption region finder (fake_spectra/haloassigned_spectra.py:276-317) and of
    the halo selection (fake_spectra/halocat.py). *)
From Coq Require Import ZArith List Bool.
Import ListNotations.

(** ** Contiguous regions *)

(** numpy.diff of a boolean array: exclusive or of neighbours. *)
Fixpoint bool_diff (c : list bool) : list bool :=
  match c with
  | a :: ((b :: _) as t) => xorb a b :: bool_diff t
  | _ => []
  end.

(** numpy nonzero: the indices of the true elements, counted from [k]. *)
Fixpoint nonzero (k : nat) (d : list bool) : list nat :=
  match d with
  | [] => []
  | true :: t => k :: nonzero (S k) t
  | false :: t => nonzero (S k) t
  end.

(** idx.shape = (-1,2): rows of two; [None] is the ValueError for an odd number of entries. *)
Fixpoint reshape2 (idx : list nat) : option (list (nat * nat)) :=
  match idx with
  | [] => Some []
  | [_] => None
  | a :: b :: t => match reshape2 t with Some r => Some ((a, b) :: r) | None => None end
  end.

(** haloassigned_spectra.py:294-317.  [None] is an exception: IndexError for an empty array
    (line 307) or the ValueError of the reshape. *)
Definition contiguous_regions (condition : list bool) : option (list (nat * nat)) :=
  match condition with
  | [] => None
  | c0 :: _ =>
      let idx := map S (nonzero 0 (bool_diff condition)) in
      let idx := if c0 then 0 :: idx else idx in
      let idx := if last condition false then idx ++ [length condition] else idx in
      reshape2 idx
  end.

(** haloassigned_spectra.py:283-290: the loop over the remaining regions.  [newreg] is kept
    with its last row first. *)
Definition combine_step (mindist : Z) (newreg : list (nat * nat)) (r : nat * nat)
  : list (nat * nat) :=
  match newreg with
  | [] => [r]   (* never reached: newreg starts with one row *)
  | (a, b) :: older =>
      if (Z.of_nat (fst r) - Z.of_nat b <? mindist)%Z then (a, snd r) :: older
      else r :: newreg
  end.

(** haloassigned_spectra.py:276-292. *)
Definition combine_regions (condition : list bool) (mindist : Z) : option (list (nat * nat)) :=
  match contiguous_regions condition with
  | None => None
  | Some reg =>
      match reg with
      | r0 :: ((_ :: _) as rest) =>
          if (0 <? mindist)%Z then Some (rev (fold_left (combine_step mindist) rest [r0]))
          else Some reg
      | _ => Some reg
      end
  end.

(** ** Halos *)
Local Open Scope Z_scope.

(** A row of the halo catalogue: mass, position and radius. *)
Record halo := mkHalo { ha_mass : Z; ha_x : Z; ha_y : Z; ha_z : Z; ha_r : Z }.

(** halocat.py:19: the halos within [r] of [h] in each coordinate. *)
Definition in_cube (h : halo) (r : Z) (h' : halo) : bool :=
  (Z.abs (ha_x h' - ha_x h) <? r) && (Z.abs (ha_y h' - ha_y h) <? r)
  && (Z.abs (ha_z h' - ha_z h) <? r).

(** halocat.py:17-21 (returns true when the halo is to be kept). *)
Definition is_masked (hs : list halo) (h : halo) : bool :=
  let near := filter (in_cube h (ha_r h)) hs in
  Nat.eqb (length (filter (fun h' => ha_mass h <? ha_mass h') near)) 0.

(** halocat.py:35-44: halos above the mass cut, with their catalogue index.  The mass unit
    conversion (a positive factor, 10^10 in exact arithmetic) is applied. *)
Definition find_all_halos (cat : list halo) (min_mass : Z) : list (nat * halo) :=
  map (fun e => (fst e, mkHalo (ha_mass (snd e) * 10 ^ 10) (ha_x (snd e)) (ha_y (snd e))
                          (ha_z (snd e)) (ha_r (snd e))))
    (filter (fun e => min_mass <? ha_mass (snd e)) (combine (seq 0 (length cat)) cat)).

(** halocat.py:63-71; [dist] is an integer multiple of the virial radius here. *)
Definition find_wanted_halos (cat : list halo) (min_mass dist : Z) : list (nat * halo) :=
  let all := map (fun e => (fst e, mkHalo (ha_mass (snd e)) (ha_x (snd e)) (ha_y (snd e))
                                     (ha_z (snd e)) (ha_r (snd e) * dist)))
               (find_all_halos cat min_mass) in
  filter (fun e => is_masked (map snd all) (snd e)) all.
