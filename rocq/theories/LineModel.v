(** Model of fake_spectra/line_data.py: parsing the table of atomic lines. *)
From Coq Require Import ZArith List Bool Ascii String.
Import ListNotations.
Local Open Scope char_scope.

(** A python string: a list of characters (ASCII; atom.dat is ASCII). *)
Definition str := list ascii.
(** A string as a list of characters. *)
Definition S_ (s : string) : str := list_ascii_of_string s.

(** ** Roman numerals *)

(** line_data.py:147-148: ints[nums.index(c)], [None] if [c] is not in nums. *)
Definition roman_digit (c : ascii) : option Z :=
  match c with
  | "M" => Some 1000%Z | "D" => Some 500%Z | "C" => Some 100%Z | "L" => Some 50%Z
  | "X" => Some 10%Z | "V" => Some 5%Z | "I" => Some 1%Z
  | _ => None
  end.

(** line_data.py:150-152: the check that every character is a numeral. *)
Fixpoint roman_values (s : str) : option (list Z) :=
  match s with
  | [] => Some []
  | c :: s' =>
      match roman_digit c, roman_values s' with
      | Some v, Some vs => Some (v :: vs)
      | _, _ => None
      end
  end.

(** line_data.py:153-164: the list [places]. *)
Fixpoint roman_places (vs : list Z) : list Z :=
  match vs with
  | [] => []
  | v :: vs' =>
      match vs' with
      | [] => [v]
      | next :: _ => (if (v <? next)%Z then (v * -1)%Z else v) :: roman_places vs'
      end
  end.

(** line_data.py:115-168.  [None] is the ValueError of line 152 (the TypeError of line 145
    cannot happen for a string). *)
Definition roman_to_int (s : str) : option Z :=
  match roman_values s with
  | None => None
  | Some vs => Some (fold_left Z.add (roman_places vs) 0%Z)
  end.

(** ** Species of a line *)

Definition is_upper (c : ascii) : bool :=
  (Nat.leb 65 (nat_of_ascii c)) && (Nat.leb (nat_of_ascii c) 90).
(** A lower case letter. *)
Definition is_lower (c : ascii) : bool :=
  (Nat.leb 97 (nat_of_ascii c)) && (Nat.leb (nat_of_ascii c) 122).
(** The regular expression class \s on ASCII: tab, newline, vertical tab, form feed, return,
    the separators 28-31 and space. *)
Definition is_space (c : ascii) : bool :=
  let n := nat_of_ascii c in
  (Nat.leb 9 n && Nat.leb n 13) || (Nat.leb 28 n && Nat.leb n 32).
(** The end of a line. *)
Definition is_newline (c : ascii) : bool := Nat.eqb (nat_of_ascii c) 10.

(** The longest prefix of white space, and the rest. *)
Fixpoint take_space (s : str) : str * str :=
  match s with
  | c :: s' => if is_space c then let (a, b) := take_space s' in (c :: a, b) else ([], s)
  | [] => ([], [])
  end.

(** line_data.py:88: the match of ([A-Z]\s*[a-z]?)([A-Z].{3}) at the start of the line.  The
    classes that follow \s* and [a-z]? exclude what these match, so matching greedily
    without backtracking finds the only match. *)
Definition match_species (s : str) : option (str * str) :=
  match s with
  | c0 :: s1 =>
      if is_upper c0 then
        let (ws, s2) := take_space s1 in
        let (low, s3) := match s2 with
                         | c :: s' => if is_lower c then ([c], s') else ([], s2)
                         | [] => ([], s2)
                         end in
        match s3 with
        | u :: a :: b :: c :: _ =>
            if is_upper u && negb (is_newline a) && negb (is_newline b) && negb (is_newline c)
            then Some (c0 :: ws ++ low, [u; a; b; c])
            else None
        | _ => None
        end
      else None
  | [] => None
  end.

(** line_data.py:91,93: re.sub(r"\s", "", ...). *)
Definition strip_spaces (s : str) : str := filter (fun c => negb (is_space c)) s.

(** line_data.py:83-95.  [None] is ValueError. *)
Definition find_species (line : str) : option (str * Z) :=
  match match_species line with
  | None => None
  | Some (sp, ion) =>
      match roman_to_int (strip_spaces ion) with
      | None => None
      | Some n => Some (strip_spaces sp, n)
      end
  end.

(** ** The table *)

Fixpoint str_eqb (a b : str) : bool :=
  match a, b with
  | [], [] => true
  | x :: a', y :: b' => Ascii.eqb x y && str_eqb a' b'
  | _, _ => false
  end.

(** line_data.py:19. *)
Definition known_species : list str := map S_ ["H"; "He"; "C"; "N"; "O"; "Ne"; "Mg"; "Si"; "Fe"]%string.

Section Table.
(** line_data.py:97-111, 54-57, 77: the data of a line and its integer wavelength.  Parsing
    of decimal floats is left abstract; [None] is the IndexError of line 111. *)
Variable Line : Type.
Variable parse : str -> option (Z * Line).

(** The nested dictionary, as an association list keyed by (species, ion, wavelength): a
    nested python dictionary with these keys. *)
Definition table := list ((str * Z * Z) * Line).
(** Equality of dictionary keys. *)
Definition key_eqb (a b : str * Z * Z) : bool :=
  match a, b with
  | (s, i, w), (s', i', w') => str_eqb s s' && (i =? i')%Z && (w =? w')%Z
  end.
(** Access to the dictionary. *)
Fixpoint lookup (k : str * Z * Z) (t : table) : option Line :=
  match t with
  | [] => None
  | (k', v) :: t' => if key_eqb k k' then Some v else lookup k t'
  end.
(** Dictionary assignment (the entry keeps its position when the key exists). *)
Fixpoint assign (k : str * Z * Z) (v : Line) (t : table) : table :=
  match t with
  | [] => [(k, v)]
  | (k', v') :: t' => if key_eqb k k' then (k', v) :: t' else (k', v') :: assign k v t'
  end.

(** line_data.py:66-79: one line of the file. *)
Definition read_line (t : option table) (line : str) : option table :=
  match t with
  | None => None
  | Some t =>
      match find_species line with
      | None => Some t
      | Some (sp, ion) =>
          if negb (existsb (str_eqb sp) known_species) || (ion <? 0)%Z then Some t
          else
            match parse line with
            | None => None
            | Some (w, l) => Some (assign (sp, ion, w) l t)
            end
      end
  end.

(** line_data.py:59-81: the whole file (as the list of its lines; the empty string read at
    the end of the file is a ValueError in find_species and adds nothing). *)
Definition read_vpfit (lines : list str) : option table := fold_left read_line lines (Some []).
End Table.
