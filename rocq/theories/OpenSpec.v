(** Specification vocabulary for the opening of snapshots. *)
From Coq Require Import Ascii String ZArith List Arith Sorted.
From Verif Require Import OpenModel.
Import ListNotations.
Local Open Scope string_scope.

(** The character is the digit d. *)
Definition is_digit (c : ascii) (d : nat) : Prop := d < 10 /\ c = ascii_of_nat (48 + d).

(** The string is a sequence of decimal digits with value n, read left to right after the value [a]. *)
Inductive reads : nat -> string -> nat -> Prop :=
| reads_nil : forall a, reads a EmptyString a
| reads_cons : forall a c d s n, is_digit c d -> reads (10 * a + d) s n -> reads a (String c s) n.

(** s is the number n as it appears in file names: at least three digits, leading zeros only to fill up
    three. *)
Definition numeral (s : string) (n : nat) : Prop :=
  reads 0 s n /\ 3 <= String.length s /\ (3 < String.length s -> forall c t, s = String c t -> c <> "0"%char).

(** The name looks like a file of snapshot n, starting with [word]. *)
Definition looks_like (word : string) (n : nat) (name : string) : Prop :=
  exists num mid, numeral num n /\ name = word ++ num ++ mid ++ "hdf5".

(** The directory searched for snapshot n: its own if there is one. *)
Definition home (k : disk) (n : nat) (d : string) (l : list (string * bool)) : Prop :=
  exists num, numeral num n /\
   ((listing k ("snapdir_" ++ num) = Some l /\ d = "snapdir_" ++ num) \/
    (listing k ("snapdir_" ++ num) = None /\ d = "" /\
     (listing k "" = Some l \/ listing k "" = None /\ l = []))).

(** The files of a directory that make up snapshot n: those starting with snap_, or if there are none
    those starting with snapshot_. *)
Definition member (l : list (string * bool)) (n : nat) (f : string * bool) : Prop :=
  In f l /\
  (looks_like "snap_" n (fst f) \/
   (forall g, In g l -> ~ looks_like "snap_" n (fst g)) /\ looks_like "snapshot_" n (fst f)).

(** Descending order of names, no name twice. *)
Definition descending (l : list string) : Prop :=
  StronglySorted (fun a b => String.compare a b = Gt) l.

(** What bigfile finds for snapshot n. *)
Definition bigfile_at (k : disk) (n : nat) (d : string) : Prop :=
  exists num, numeral num n /\
   (listing k ("PART_" ++ num) <> None /\ d = "PART_" ++ num \/ listing k ("PART_" ++ num) = None /\ d = "") /\
   big k d = GoodBig.

(** The names under which the two formats store the same quantity. *)
Inductive twin : string -> string -> Prop :=
| t_pos : twin "Coordinates" "Position"
| t_vel : twin "Velocities" "Velocity"
| t_mass : twin "Masses" "Mass"
| t_nh : twin "NeutralHydrogenAbundance" "NeutralHydrogenFraction"
| t_met : twin "GFM_Metallicity" "Metallicity".

(** The contents of a block in all files, one after the other. *)
Definition joined {A} (fs : list (string -> option (list A))) (x : string) (d : list A) : Prop :=
  exists ds, Forall2 (fun f e => f x = Some e) fs ds /\ d = concat ds.

(** An HDF5 snapshot of several files and a BigFile snapshot with the same data. *)
Definition same_snapshot {A} (fs : list (string -> option (list A))) (bf : string -> option (list A)) : Prop :=
  (forall h b, twin h b -> forall d, joined fs h d <-> bf b = Some d) /\
  (forall x, (forall y, ~ twin x y) -> (forall y, ~ twin y x) -> forall d, joined fs x d <-> bf x = Some d).
