(** Specification vocabulary for the derived quantities. *)
From Coq Require Import Ascii String ZArith List Reals.
From Verif Require Import QuantModel.
Import ListNotations.
Local Open Scope R_scope.

(** Free particles in a gram of gas with hydrogen mass fraction X, the rest helium, and ne electrons per
    hydrogen atom: hydrogen nuclei weigh one proton mass, helium nuclei four. *)
Definition particles_per_gram (X ne : R) : R := (X + (1 - X) / 4 + ne * X) / 1.67262178e-24.

(** The temperature of a monatomic gas with this energy per gram: each particle carries 3/2 k T. *)
Definition thermal (X ne energy T : R) : Prop := energy = particles_per_gram X ne * (3 / 2 * 1.38066e-16 * T).

(** The three units are all in the header. *)
Definition units_given (header : string -> option R) (u : units) : Prop :=
  header "UnitLength_in_cm"%string = Some (u_length u) /\ header "UnitMass_in_g"%string = Some (u_mass u) /\
  header "UnitVelocity_in_cm_per_s"%string = Some (u_vel u).

(** The velocity unit in force: that of the units passed in, that of the header if it has all three units, and
    1 km/s otherwise. *)
Definition unit_used (header : string -> option R) (given : option units) (v : R) : Prop :=
  (exists u, given = Some u /\ v = u_vel u) \/
  (given = None /\ exists u, units_given header u /\ v = u_vel u) \/
  (given = None /\ (header "UnitLength_in_cm"%string = None \/ header "UnitMass_in_g"%string = None \/
     header "UnitVelocity_in_cm_per_s"%string = None) /\ v = 1e5).

Inductive Forall3 {A B C} (P : A -> B -> C -> Prop) : list A -> list B -> list C -> Prop :=
| F3_nil : Forall3 P [] [] []
| F3_cons : forall a b c l m n, P a b c -> Forall3 P l m n -> Forall3 P (a :: l) (b :: m) (c :: n).

(** Every file has gas, and all files have the same blocks. *)
Definition uniform (fs : list hfile) : Prop :=
  forall f g, In f fs -> In g fs -> exists bf bg, gas f = Some bf /\ gas g = Some bg /\
    forall x, bf x = None <-> bg x = None.

(** The blocks of all files, one after the other. *)
Definition whole_block (fs : list hfile) (x : string) (d : list R) : Prop :=
  exists ds, Forall2 (fun f e => exists g, gas f = Some g /\ g x = Some e) fs ds /\ d = concat ds.

(** The block of a segment: of one file, or of all if the segment is negative. *)
Definition segment_block (fs : list hfile) (s : Z) (x : string) (d : list R) : Prop :=
  (s < 0)%Z /\ whole_block fs x d \/
  (0 <= s)%Z /\ exists f g, nth_error fs (Z.to_nat s) = Some f /\ gas f = Some g /\ g x = Some d.

(** The cells' volumes in a segment: stored, or if not mass over density. *)
Definition cell_volumes (fs : list hfile) (s : Z) (v : list R) : Prop :=
  segment_block fs s "Volume" v \/
  (forall v', ~ segment_block fs s "Volume" v') /\
  exists m d, segment_block fs s "Masses" m /\ segment_block fs s "Density" d /\ Forall3 (fun m d v => v = m / d) m d v.

(** Valid segments of a snapshot. *)
Definition valid (fs : list hfile) (s : Z) : Prop := (s < Z.of_nat (length fs))%Z.

(** Mass of the gas and of the dark matter in a file. *)
Definition masses (f : hfile) (bar dm : R) : Prop :=
  exists g m, gas f = Some g /\ g "Masses"%string = Some m /\ bar = fold_right Rplus 0 m /\ dm = dm_mass f * dm_count f.
