(** C127: the table of lines shared by all LineData objects of a process. *)
From Coq Require Import ZArith List Bool Ascii String Reals.
From Verif Require Import LineModel LinedataModel LinedataSpec LinedataProofs.
Import ListNotations.

(** While no line is assigned to, every object shows the table of the package as it was the first time it could be read, however often
    the file changed, vanished or was malformed before or after. *)
Theorem C127_first : forall Line (parse : str -> option (Z * Line)) es i t, only_made es -> shown (run parse started es) i = Some t ->
  exists pre ls post, es = pre ++ New None (Some ls) :: post /\ nothing_read parse pre /\ read_vpfit Line parse ls = Some t.
Proof. exact C127_first_aux. Qed.
Print Assumptions C127_first.

(** Making an object of the table of the package fails exactly if none was made before and the file is missing or malformed; a failure
    leaves no trace, so that the next attempt reads the file again. *)
Theorem C127_fails : forall Line (parse : str -> option (Z * Line)) es disk,
  let p := run parse started es in
  (fst (step parse p (New None disk)) <> Made <->
   (forall i, shown p i = None) /\ forall ls, disk = Some ls -> nothing_read parse [New None (Some ls)]) /\
  (fst (step parse p (New None disk)) <> Made -> snd (step parse p (New None disk)) = p).
Proof. exact C127_fails_aux. Qed.
Print Assumptions C127_fails.

(** After any history two objects show the same table. *)
Theorem C127_same : forall Line (parse : str -> option (Z * Line)) es i j t u,
  shown (run parse started es) i = Some t -> shown (run parse started es) j = Some u -> t = u.
Proof. exact C127_same_aux. Qed.
Print Assumptions C127_same.

(** Objects are therefore not independent: a line assigned through one is what every other object shows, also those made later; all other
    lines stay. *)
Theorem C127_change_refuted : forall Line (parse : str -> option (Z * Line)) es es' i sp ion w l j t, only_made es' ->
  let before := run parse started es in
  fst (step parse before (Change i sp ion w l)) = Changed ->
  shown (run parse started (es ++ Change i sp ion w l :: es')) j = Some t ->
  exists old, shown before i = Some old /\ forall k, lookup Line k t = if key_eqb k (sp, ion, w) then Some l else lookup Line k old.
Proof. exact C127_change_aux. Qed.
Print Assumptions C127_change_refuted.

(** The documented argument, a file to read instead, always raises. *)
Theorem C127_named_refuted : forall Line (parse : str -> option (Z * Line)) p f disk, step parse p (New (Some f) disk) = (UnboundLocalError, p).
Proof. exact C127_named_aux. Qed.
Print Assumptions C127_named_refuted.

(** The ions which can be looked up are those of which the file describes a transition, and the length of the object is their number. *)
Theorem C127_ions : forall Line (parse : str -> option (Z * Line)) ls t, read_vpfit Line parse ls = Some t ->
  (forall sp ion, getitem t sp ion <> None <-> mentions parse ls sp ion) /\
  exists ks, NoDup ks /\ len t = List.length ks /\ forall sp ion, In (sp, ion) ks <-> mentions parse ls sp ion.
Proof. exact C127_ions_aux. Qed.
Print Assumptions C127_ions.

(** The mass of each of them is known, and only those of the nine species are. *)
Theorem C127_mass : forall Line (parse : str -> option (Z * Line)) ls t sp ion, read_vpfit Line parse ls = Some t -> getitem t sp ion <> None ->
  exists m, get_mass sp = Some m /\ (1 < m)%R.
Proof. exact C127_mass_aux. Qed.
Print Assumptions C127_mass.

Theorem C127_species : forall sp, (exists m, get_mass sp = Some m) <-> In sp known_species.
Proof. exact C127_unknown_mass_aux. Qed.
Print Assumptions C127_species.

(** Two lines of the shipped file, read into one object; a second object made after the file is gone; a change through the first. *)
Example C127_example :
  let parse := fun l : str => Some (Z.of_nat (List.length l), "x"%string) in
  let h := run parse started [New None None; New (Some (S_ "my.dat")) None; New None (Some [S_ "H I   1215"; S_ "C IV  1548.2"]);
                              New None None; Change 0 (S_ "H") 1 10 "y"%string] in
  shown h 0 = Some [((S_ "H", 1%Z, 10%Z), "y"%string); ((S_ "C", 4%Z, 12%Z), "x"%string)] /\ shown h 1 = shown h 0 /\ shown h 2 = None /\
  option_map len (shown h 0) = Some 2.
Proof. cbv zeta. repeat split; reflexivity. Qed.
