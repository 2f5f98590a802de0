(** Canonical roman numerals and the layout of a line table entry, written independently of
    the parser. *)
From Coq Require Import ZArith List String Ascii.
From Verif Require Import LineModel.
Import ListNotations.
Local Open Scope string_scope.

(** The numeral of one decimal digit, given the symbols for 1, 5 and 10. *)
Definition digit_numeral (one five ten : string) (d : Z) : string :=
  match d with
  | 1%Z => one | 2%Z => one ++ one | 3%Z => one ++ one ++ one | 4%Z => one ++ five
  | 5%Z => five | 6%Z => five ++ one | 7%Z => five ++ one ++ one
  | 8%Z => five ++ one ++ one ++ one | 9%Z => one ++ ten
  | _ => ""
  end.

(** The canonical numeral of n: thousands as repeated M, then hundreds, tens and units. *)
Definition numeral (n : Z) : str :=
  (repeat "M"%char (Z.to_nat (n / 1000)) ++
   S_ (digit_numeral "C" "D" "M" (n / 100 mod 10)) ++
   S_ (digit_numeral "X" "L" "C" (n / 10 mod 10)) ++
   S_ (digit_numeral "I" "V" "X" (n mod 10)))%list.

(** [s] padded with blanks on the right to [w] characters. *)
Definition pad (w : nat) (s : str) : str := (s ++ repeat " "%char (w - List.length s))%list.

(** A species symbol: a capital letter, or a capital and a lower case letter. *)
Definition symbol (s : str) : Prop :=
  (exists a, s = [a] /\ is_upper a = true) \/
  (exists a b, s = [a; b] /\ is_upper a = true /\ is_lower b = true).

(** A line of the file describes the transition [l] of ion [ion] of one of the nine known
    species, with integer wavelength [w]. *)
Definition describes {Line} (parse : str -> option (Z * Line)) (line : str)
    (sp : str) (ion w : Z) (l : Line) : Prop :=
  find_species line = Some (sp, ion) /\ In sp known_species /\ (0 <= ion)%Z /\
  parse line = Some (w, l).
