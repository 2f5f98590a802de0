(** Specification of periodic friends-of-friends grouping. *)
From Coq Require Import ZArith List QArith Sorting.Sorted.
Import ListNotations.
Local Open Scope Z_scope.

Definition total (l : list Z) : Z := fold_right Z.add 0 l.

(** The distance going up in wavelength from component [c] to component [d], with period [w]. *)
Definition ahead (w : Z) (c d : Z * Z) : Z := (fst d - fst c) mod w.

(** Neighbouring members of a group are closer than [close]. *)
Fixpoint linked (w close : Z) (g : list (Z * Z)) : Prop :=
  match g with
  | c :: ((d :: _) as t) => ahead w c d < close /\ linked w close t
  | _ => True
  end.

(** The gap from the end of a group to the start of another one. *)
Definition group_gap (w : Z) (g h : list (Z * Z)) : Z :=
  ahead w (last g (0, 0)) (hd (0, 0) h).

(** Neighbouring groups, in periodic order, are at least [close] apart; [first] is the group
    that follows the last one. *)
Fixpoint separated (w close : Z) (gs : list (list (Z * Z))) (first : list (Z * Z)) : Prop :=
  match gs with
  | [] => True
  | [g] => close <= group_gap w g first
  | g :: ((h :: _) as t) => close <= group_gap w g h /\ separated w close t first
  end.

(** Members in increasing order of position: the group does not extend across the boundary. *)
Definition ascending (g : list (Z * Z)) : Prop := StronglySorted (fun a b => fst a < fst b) g.

(** A sensible position [p] of a system: a single member has its own position; two members have
    the middle of the arc from the first to the second, brought back into the spectrum; and a
    group inside the spectrum lies between its first and last member. *)
Definition placed (w : Z) (g : list (Z * Z)) (p : Q) : Prop :=
  (forall a, g = [a] -> p == inject_Z (fst a))%Q /\
  (forall a b, g = [a; b] -> 0 <= p /\ p < inject_Z w /\ exists k,
      p + inject_Z k * inject_Z w == inject_Z (fst a) + inject_Z (ahead w a b) / 2)%Q /\
  (ascending g -> inject_Z (fst (hd (0, 0)%Z g)) <= p /\ p <= inject_Z (fst (last g (0, 0)%Z)))%Q.
