(** Model of the LineData objects of fake_spectra/line_data.py in one python process: the table kept by the module and shared by all
    objects.  Reading the file itself is LineModel. *)
From Coq Require Import ZArith List Bool Ascii String Reals.
From Verif Require Import LineModel.
Import ListNotations.

Section Process.
Variable Line : Type.
Variable parse : str -> option (Z * Line).

(** line_data.py:11-12: the module variable (a reference to a dictionary, or None), the dictionaries by reference, and the objects
    made so far: the dictionary to which the attribute lines of each refers. *)
Record process := mkProcess { cached : option nat; dicts : list (table Line); objects : list nat }.

(** The process after the import of the module, line_data.py:11-12. *)
Definition started : process := mkProcess None [] [].

(** How a call ends: normally, or with a python exception. *)
Inductive outcome := Made | Changed | UnboundLocalError | OSError | IndexError | KeyError | NameError.

(** line_data.py:18-32 LineData(vpdat), while atom.dat of the package has the lines [disk] (None: it cannot be opened).  When a file is
    named the local variable vpdata, assigned in the other branch only, is used unassigned. *)
Definition new_object (vpdat : option str) (disk : option (list str)) (p : process) : outcome * process :=
  match vpdat with
  | Some _ => (UnboundLocalError, p)
  | None =>
      match cached p with
      | Some r => (Made, mkProcess (cached p) (dicts p) (objects p ++ [r]))
      | None =>
          match disk with
          | None => (OSError, p)
          | Some ls =>
              match read_vpfit Line parse ls with
              | None => (IndexError, p)
              | Some t => let r := List.length (dicts p) in (Made, mkProcess (Some r) (dicts p ++ [t]) (objects p ++ [r]))
              end
          end
      end
  end.

(** The dictionary which object [i] shows. *)
Definition shown (p : process) (i : nat) : option (table Line) :=
  match nth_error (objects p) i with Some r => nth_error (dicts p) r | None => None end.

(** Does an entry of the dictionary belong to the ion (helper). *)
Definition has_ion (sp : str) (ion : Z) (e : (str * Z * Z) * Line) : bool :=
  str_eqb sp (fst (fst (fst e))) && (ion =? snd (fst (fst e)))%Z.

(** line_data.py:34-40 __getitem__: the lines of an ion by integer wavelength; None is the KeyError. *)
Definition getitem (t : table Line) (sp : str) (ion : Z) : option (list (Z * Line)) :=
  match filter (has_ion sp ion) t with
  | [] => None
  | es => Some (map (fun e => (snd (fst e), snd e)) es)
  end.

(** line_data.py:42-43 __len__: the number of ions. *)
Fixpoint ions (t : table Line) : list (str * Z) :=
  match t with
  | [] => []
  | e :: t' =>
      let r := ions t' in
      if existsb (fun q => str_eqb (fst (fst (fst e))) (fst q) && (snd (fst (fst e)) =? snd q)%Z) r then r else fst (fst e) :: r
  end.
(** line_data.py:42-43, with the definition above. *)
Definition len (t : table Line) : nat := List.length (ions t).

(** A dictionary changed in place (helper). *)
Fixpoint replace_nth (l : list (table Line)) (r : nat) (t : table Line) : list (table Line) :=
  match l, r with
  | [], _ => []
  | _ :: l', O => t :: l'
  | x :: l', S r' => x :: replace_nth l' r' t
  end.

(** What the user of the package does: make an object, or assign a line in place through one, ld[(sp, ion)][w] = l (line_data.py:34-40
    returns the dictionary itself). *)
Inductive event :=
| New (vpdat : option str) (disk : option (list str))
| Change (obj : nat) (sp : str) (ion w : Z) (l : Line).

(** line_data.py:14-40 *)
Definition step (p : process) (e : event) : outcome * process :=
  match e with
  | New v d => new_object v d p
  | Change i sp ion w l =>
      match nth_error (objects p) i with
      | None => (NameError, p)
      | Some r =>
          match nth_error (dicts p) r with
          | None => (NameError, p)
          | Some t =>
              match getitem t sp ion with
              | None => (KeyError, p)
              | Some _ => (Changed, mkProcess (cached p) (replace_nth (dicts p) r (assign Line (sp, ion, w) l t)) (objects p))
              end
          end
      end
  end.

(** Any history of one process (line_data.py:11-46). *)
Definition run (p : process) (es : list event) : process := fold_left (fun p e => snd (step p e)) es p.
End Process.

Arguments started {Line}. Arguments New {Line}. Arguments Change {Line}. Arguments dicts {Line}. Arguments objects {Line}. Arguments cached {Line}.
Arguments shown {Line}. Arguments getitem {Line}. Arguments ions {Line}. Arguments len {Line}. Arguments step {Line}. Arguments run {Line}.
Arguments new_object {Line}. Arguments mkProcess {Line}. Arguments replace_nth {Line}. Arguments has_ion {Line}.

(** line_data.py:21: the masses. *)
Definition masses : list (str * R) :=
  [(S_ "H", 1.00794); (S_ "He", 4.002602); (S_ "C", 12.011); (S_ "N", 14.00674); (S_ "O", 15.9994); (S_ "Ne", 20.18);
   (S_ "Mg", 24.3050); (S_ "Si", 28.0855); (S_ "Fe", 55.847)]%R.

(** line_data.py:45-47 get_mass: None is the KeyError. *)
Definition get_mass (sp : str) : option R :=
  match find (fun e => str_eqb sp (fst e)) masses with Some e => Some (snd e) | None => None end.
