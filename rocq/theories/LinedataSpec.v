(** What the objects of a process show, in terms of the events alone. *)
From Coq Require Import ZArith List Bool Ascii String.
From Verif Require Import LineModel LinedataModel.
Import ListNotations.

(** Only objects are made, of the table of the package or of a file which is named. *)
Definition only_made {Line} (es : list (event Line)) : Prop := forall e, In e es -> exists v d, e = New v d.

(** No table could be read in these events: each construction named a file or found the table of the package missing or malformed. *)
Definition nothing_read {Line} (parse : str -> option (Z * Line)) (es : list (event Line)) : Prop :=
  forall ls, In (New None (Some ls)) es -> exists line sp ion, In line ls /\ find_species line = Some (sp, ion) /\
    In sp known_species /\ (0 <= ion)%Z /\ parse line = None.

(** Some line of the file describes a transition of this ion. *)
Definition mentions {Line} (parse : str -> option (Z * Line)) (ls : list str) (sp : str) (ion : Z) : Prop :=
  exists line w l, In line ls /\ find_species line = Some (sp, ion) /\ In sp known_species /\ (0 <= ion)%Z /\ parse line = Some (w, l).
