(** Model of the command line extractor: which files cextract/main.cpp reads, and
    the table of sightlines of cextract/init.c.  Both HDF5 and GadgetReader are
    assumed to be compiled in. *)
From Coq Require Import Ascii String.
From Coq Require Import Reals List Bool ZArith Arith Lia Lra.
Import ListNotations.
Local Open Scope nat_scope.

(** ** File names *)

Definition name := list ascii.

(** The ending of the first file of a snapshot in several files, main.cpp:201-202. *)
Definition zero_suffix : name := list_ascii_of_string ".0.hdf5".

(** The character of a decimal digit. *)
Definition digit (d : nat) : ascii := ascii_of_nat (48 + d).

(** Decimal printing of [std::ostringstream] (main.cpp:201-202), most significant
    digit first; [fuel] bounds the number of digits. *)
Fixpoint digits_fuel (fuel n : nat) : list nat :=
  match fuel with
  | 0 => []
  | S fuel' => if n <? 10 then [n] else digits_fuel fuel' (n / 10) ++ [n mod 10]
  end.
(** main.cpp:201-202, with the definition above. *)
Definition digits (n : nat) : list nat := digits_fuel (S n) n.
(** main.cpp:201-202, with the definition above. *)
Definition decimal (n : nat) : name := map digit (digits n).

(** Comparison of the beginning of a string (helper of std::string::find). *)
Fixpoint starts_with (pat s : name) : bool :=
  match pat, s with
  | [], _ => true
  | c :: pat', d :: s' => Ascii.eqb c d && starts_with pat' s'
  | _ :: _, [] => false
  end.

(** std::string::find: the first position, [None] for npos *)
Fixpoint find (pat s : name) : option nat :=
  if starts_with pat s then Some 0
  else match s with
       | [] => None
       | _ :: s' => option_map S (find pat s')
       end.

(** std::string::replace(i, 1, x) *)
Definition replace_one (i : nat) (x s : name) : name := firstn i s ++ x ++ skipn (S i) s.

(** ** The files *)

(** What is found under a name.  A file whose header cannot be read or which has
    no particle group is broken before or after the particle arrays are
    allocated (read_hdf_snapshot.c:116-148). *)
Inductive file :=
| Missing
| NotHdf5
| Hdf5 (particles : nat)
| NoHeader
| NoGroup.

(** H5Fis_hdf5. *)
Definition is_hdf5 (f : file) : bool :=
  match f with Hdf5 _ | NoHeader | NoGroup => true | _ => false end.

(** main.cpp:55-79 find_first_hdf_file: [None] is the empty string *)
Definition find_first (disk : name -> file) (infname : name) : option name :=
  if is_hdf5 (disk infname) then Some infname
  else if is_hdf5 (disk (infname ++ zero_suffix)) then Some (infname ++ zero_suffix)
  else None.

(** The end of the loop over files: [Finished l] after interpolating the named
    files, [Gadget l] if the Gadget reader was asked to read the input, [Crash l]
    when memory that is not allocated is freed (main.cpp:240 free_parts after
    load_hdf5_snapshot failed before alloc_parts), [Running l] if the loop has
    not ended after [fuel] rounds.  The list gives the files interpolated. *)
Inductive loop_end :=
| Finished (files : list name)
| Gadget
| Crash (files : list name)
| Running (files : list name).

(** main.cpp:196-241 the do-while loop with [i_fileno > 0].  [fname] is changed
    by [replace], which works in place. *)
Fixpoint file_loop (disk : name -> file) (i fuel fileno : nat) (fname : name) (done : list name)
  : loop_end :=
  match fuel with
  | 0 => Running done
  | S fuel' =>
      let fileno' := S fileno in
      let fname' := replace_one i (decimal fileno') fname in
      match disk fname' with
      | Missing | NotHdf5 => Finished done
      | Hdf5 _ => file_loop disk i fuel' fileno' fname' (done ++ [fname'])
      | NoGroup => file_loop disk i fuel' fileno' fname' done
      | NoHeader => Crash done
      end
  end.

(** main.cpp:158-241.  The header is read from the first file; a header without
    particles or an unreadable one leads to the Gadget reader, as does a name
    without [.0.hdf5], for which [find] returns npos and [i_fileno] is 0. *)
Definition extract (disk : name -> file) (indir : name) (fuel : nat) : loop_end :=
  match find_first disk indir with
  | None => Gadget
  | Some fname =>
      match disk fname with
      | NoHeader => Gadget
      | _ =>
          match find zero_suffix fname with
          | None => Gadget
          | Some p => file_loop disk (S p) fuel 0 fname []
          end
      end
  end.

(** ** The table of sightlines *)
Local Open Scope R_scope.

(** A sightline, and one line of the table file (init.c:21); a line which is not "%d %f %f %f" leaves some of
    the variables as they were and is read again and again (not modelled: lines
    here are well formed). *)
Record sightline := Sightline { l_axis : Z; l_x : R; l_y : R; l_z : R }.

(** init.c:25-33: the checks *)
Definition silly (boxm : R) (l : sightline) : bool :=
  if (3 <? l_axis l)%Z || (l_axis l <? 0)%Z then true
  else if Rlt_dec boxm (l_x l) then true else if Rlt_dec (l_x l) 0 then true
  else if Rlt_dec boxm (l_y l) then true else if Rlt_dec (l_y l) 0 then true
  else if Rlt_dec boxm (l_z l) then true else if Rlt_dec (l_z l) 0 then true
  else false.

(** init.c:20-39: [n] lines are read, [None] is exit(3).  Rounding to float is
    not modelled. *)
Fixpoint read_table (boxm : R) (n : nat) (lines : list sightline) : option (list sightline) :=
  match n with
  | 0%nat => Some []
  | S n' =>
      match lines with
      | [] => None
      | l :: lines' =>
          if silly boxm l then None
          else option_map (cons (Sightline (l_axis l) (l_x l * 1000) (l_y l * 1000) (l_z l * 1000)))
                 (read_table boxm n' lines')
      end
  end.

(** init.c:42-52: random sightlines from the stream of drand48, which gives
    numbers in [0,1).  [(int)(u*4)] is the integer part.  [None]: still drawing
    an axis after [fuel] numbers. *)
Definition int_of (x : R) : Z := (up x - 1)%Z.

(** init.c:42-52, the inner loop: an axis is drawn until it is not zero. *)
Fixpoint draw_axis (u : nat -> R) (fuel pos : nat) : option (Z * nat) :=
  match fuel with
  | 0%nat => None
  | S fuel' =>
      let axis := int_of (u pos * 4) in
      if ((axis =? 0)%Z || (axis =? 4)%Z)%bool then draw_axis u fuel' (S pos)
      else Some (axis, S pos)
  end.

(** init.c:42-52, the outer loop over the sightlines. *)
Fixpoint random_table (u : nat -> R) (box : R) (fuel n pos : nat) : option (list sightline) :=
  match n with
  | 0%nat => Some []
  | S n' =>
      match draw_axis u fuel pos with
      | None => None
      | Some (axis, p) =>
          option_map (cons (Sightline axis (u p * box) (u (p + 1)%nat * box) (u (p + 2)%nat * box)))
            (random_table u box fuel n' (p + 3)%nat)
      end
  end.

(** init.c:6-54 populate_los_table; the error exit and an endless draw are [None]. *)
Definition populate_los_table (table : option (list sightline)) (u : nat -> R) (box : R)
  (n fuel : nat) : option (list sightline) :=
  match table with
  | Some lines => read_table (box / 1000) n lines
  | None => random_table u box fuel n 0
  end.
