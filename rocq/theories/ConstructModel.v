(** Model of the constructors of Spectra (fake_spectra/spectra.py:85-264), GriddedSpectra
    (fake_spectra/griddedspectra.py:12-56) and RandSpectra (fake_spectra/randspectra.py:12-25): which arguments are
    accepted, which sightlines the object gets, which kernel, and which file it is saved to.  Lengths and pixels are those
    of SetupModel, directory names those of OpenModel.  Not modelled: printing, MPI, the dictionaries of results. *)
From Coq Require Import Ascii String Reals ZArith List Bool.
From Flocq Require Import Core.Raux.
From Verif Require Import OpenModel SightlineModel.
From Verif Require SetupModel.
Import ListNotations.
Local Open Scope string_scope.

(** The errors that leave the constructors. *)
Inductive error := AttributeE | TypeE | ValueE | IOE | RuntimeE | IndexE | OverflowE | AssertionE | UserE.

(** What a constructor returns or raises. *)
Inductive result (A : Type) := Good (a : A) | Raise (e : error).
Arguments Good {A}. Arguments Raise {A}.
(** An exception ends the constructor (helper). *)
Definition bind {A B} (x : result A) (f : A -> result B) : result B :=
  match x with Good a => f a | Raise e => Raise e end.

(** The cofm argument of spectra.py:85: None, or a rectangular nesting of numbers, as a numpy array ([arr] true) or as a
    python list or tuple. *)
Inductive pos_arg :=
| PNone
| PFlat (arr : bool) (l : list R)
| PRows (arr : bool) (rows : list (list R)).

(** The axis argument of spectra.py:85: None, a number, or a sequence. *)
Inductive axis_arg := ANone | ANum (x : R) | AVec (arr : bool) (l : list R).

(** The kernel argument of spectra.py:87: None, a string, a number. *)
Inductive kernel_arg := KNone | KStr (s : string) | KNum (z : Z).

(** self.cofm *)
Inductive positions := Flat (l : list R) | Rows (rows : list (list R)).

(** spectra.py:139-153.  get_kernel is 1 (abstractsnapshot.py:58-68; other snapshots may say otherwise, so it is an
    argument).  Formatting a string with %d raises TypeError before the ValueError is made. *)
Definition pick_kernel (get_kernel : Z) (k : kernel_arg) : result Z :=
  match k with
  | KNone => Good get_kernel
  | KStr s =>
      if String.eqb s "voronoi" then Good 2%Z
      else if String.eqb s "tophat" then Good 0%Z
      else if String.eqb s "quintic" then Good 3%Z
      else if String.eqb s "cubic" then Good 1%Z
      else if String.eqb s "sph" then Good 1%Z
      else Raise TypeE
  | KNum _ => Raise ValueE
  end.

(** spectra.py:169-171: None and lists have no astype. *)
Definition set_cofm (c : pos_arg) : result positions :=
  match c with
  | PNone => Raise AttributeE
  | PFlat arr l =>
      if Nat.eqb (length l) 3 then Good (Rows [l])
      else if arr then Good (Flat l) else Raise AttributeE
  | PRows arr rows => if arr then Good (Rows rows) else Raise AttributeE
  end.

(** spectra.py:172-174: np.shape(None) is (), and the conversion of [None] to int32 fails with TypeError; numbers are truncated
    toward zero (and taken to be within 32 bits). *)
Definition set_axis (a : axis_arg) : result (list Z) :=
  match a with
  | ANone => Raise TypeE
  | ANum x => Good [Ztrunc x]
  | AVec arr l => if arr then Good (map Ztrunc l) else Raise AttributeE
  end.

(** spectra.py:175-176 *)
Definition check_none (c : pos_arg) (a : axis_arg) : result unit :=
  match c, a with
  | PNone, _ => Raise RuntimeE
  | _, ANone => Raise RuntimeE
  | _, _ => Good tt
  end.

(** The saved file: its header, and the sightlines in it (spectra.py:293-305, 443-499). *)
Record saved := Saved { header : SetupModel.file; f_cofm : positions; f_axis : list Z }.

(** What AbstractSnapshotFactory gives (spectra.py:137): a snapshot, IOError, or IndexError (OpenModel). *)
Inductive found := Found (s : SetupModel.snapshot) (get_kernel : Z) | NoSnapshot | BadSnapshot.

(** What the constructor of the gasprop class does (spectra.py:256-259). *)
Inductive gas := GasOk | GasAttribute | GasOther.

(** The object.  [kernel_int] and [has_gas]: None, false if the attribute was never set. *)
Record object := Object {
  pixels : SetupModel.spectra; cofm : positions; axis : list Z; NumLos : nat;
  kernel_int : option Z; has_snapshot : bool; has_gas : bool; path : string }.

(** The errors of SetupModel: spectra.py:227, 230, 232, 238, 241. *)
Definition of_setup {A} (r : SetupModel.result A) : result A :=
  match r with
  | SetupModel.Done a => Good a
  | SetupModel.NoWidth => Raise ValueE
  | SetupModel.NoNbins => Raise AttributeE
  | SetupModel.Overflow => Raise OverflowE
  | SetupModel.PixelWidth => Raise AssertionE
  | SetupModel.WrongHz => Raise AssertionE
  end.

(** os.path.join of two names (spectra.py:158, 161, 162): an absolute second name replaces the first. *)
Definition join (a b : string) : string :=
  match b with
  | String c _ => if Ascii.eqb c "/" then b
                  else if String.eqb a "" then b
                  else if ends_with "/" a then a ++ b
                  else a ++ "/" ++ b
  | EmptyString => if String.eqb a "" then b else if ends_with "/" a then a else a ++ "/"
  end.

(** spectra.py:156-162; [exists_dir] is os.path.exists. *)
Definition save_path (exists_dir : string -> bool) (base : string) (num : nat) (savedir : option string) (savefile : string) : string :=
  let dir := match savedir with
             | Some d => d
             | None => let d := join base ("snapdir_" ++ snap num) in
                       if exists_dir d then d else join base ("SPECTRA_" ++ snap num)
             end in
  join dir savefile.

(** The arguments of Spectra(...) that matter here, spectra.py:85-87. *)
Record args := Args {
  a_num : nat; a_base : string; a_cofm : pos_arg; a_axis : axis_arg; a_nbins : option Z; a_res : option R;
  a_savefile : string; a_savedir : option string; a_reload : bool; a_units : option R; a_kernel : kernel_arg; a_Hz : option R;
  a_gasprop : SetupModel.spectra -> gas }.

(** The world outside: the snapshot that opens for a number and directory, the directories, and the readable saved files. *)
Record world := World { snapshots : nat -> string -> found; dirs : string -> bool; files : string -> option saved }.

(** spectra.py:136-155 *)
Definition open_step (w : world) (a : args) : result (option SetupModel.snapshot * option Z) :=
  match snapshots w (a_num a) (a_base a) with
  | Found s g => bind (pick_kernel g (a_kernel a)) (fun k => Good (Some s, Some k))
  | NoSnapshot => Good (None, None)
  | BadSnapshot => Raise IndexE
  end.

(** spectra.py:252-262: without a snapshot the AttributeError comes from self.snapshot_set; an AttributeError out of the gasprop
    class is swallowed as well. *)
Definition gas_step (snap : option SetupModel.snapshot) (g : gas) : result bool :=
  match snap with
  | None => Good false
  | Some _ => match g with GasOk => Good true | GasAttribute => Good false | GasOther => Raise UserE end
  end.

(** spectra.py:85-264 *)
Definition spectra (w : world) (a : args) : result object :=
  bind (open_step w a) (fun sk =>
  let p := save_path (dirs w) (a_base a) (a_num a) (a_savedir a) (a_savefile a) in
  bind
    (if a_reload a then
       bind (set_cofm (a_cofm a)) (fun c =>
       bind (set_axis (a_axis a)) (fun x =>
       bind (check_none (a_cofm a) (a_axis a)) (fun _ =>
       match fst sk with
       | None => Raise IOE
       | Some s => bind (of_setup (SetupModel.from_snapshot s (a_units a) (a_res a) (a_nbins a) (a_Hz a))) (fun o => Good (o, c, x))
       end)))
     else
       match files w p with
       | None => Raise IOE
       | Some f => bind (of_setup (SetupModel.from_file (header f) (a_units a) (a_res a) (a_Hz a))) (fun o => Good (o, f_cofm f, f_axis f))
       end)
    (fun t => match t with (o, c, x) =>
       bind (gas_step (fst sk) (a_gasprop a o)) (fun g =>
       Good (Object o c x (length x) (snd sk) (match fst sk with Some _ => true | None => false end) g p))
     end)).

(** What save_file writes of the object (spectra.py:293-305 and the sightlines of the spectra group). *)
Definition save (o : object) : saved := Saved (SetupModel.save (pixels o)) (cofm o) (axis o).

(** ** GriddedSpectra *)

(** The rows of the grid as positions; the axes are floats (griddedspectra.py:64-68). *)
Definition row (t : R * R * R) : list R := match t with (x, y, z) => [x; y; z] end.

(** griddedspectra.py:12-56: the arguments handed on are [a] with cofm, axis set; its reload_file, res and nbins are those of
    GriddedSpectra.  get_axes_and_cofm fails with ValueError for a
    wrong axis.  An empty grid (nspec = 0) is given as no rows of three. *)
Definition gridded (w : world) (a : args) (nspec : nat) (grid_axes : axis_arg) (grid_cofm : pos_arg) (ax : Z) : result object :=
  let go c x := spectra w (Args (a_num a) (a_base a) c x (a_nbins a) (a_res a) (a_savefile a) (a_savedir a) (a_reload a)
                                (a_units a) (a_kernel a) (a_Hz a) (a_gasprop a)) in
  if negb (a_reload a) then go PNone ANone
  else
    match snapshots w (a_num a) (a_base a) with
    | NoSnapshot => Raise IOE
    | BadSnapshot => Raise IndexE
    | Found s _ =>
        match grid_cofm with
        | PNone =>
            match get_axes_and_cofm (SetupModel.box s) nspec ax with
            | Some (axes, cs) => go (PRows true (map row cs)) (AVec true (map IZR axes))
            | None => Raise ValueE
            end
        | c => go c grid_axes
        end
    end.

(** ** RandSpectra *)

(** randspectra.py:12-25 up to the call of Spectra.  [draw] is box * np.random.random_sample((numlos, 3)) after np.random.seed(seed).
    [kw_reload]: reload_file or load_halo was passed as a keyword, and is then given twice. *)
Definition rand (w : world) (a : args) (numlos : nat) (draw : nat -> nat -> R -> list (list R)) (seed : nat) (kw_reload : bool)
    : result object :=
  match snapshots w (a_num a) (a_base a) with
  | NoSnapshot => Raise IOE
  | BadSnapshot => Raise IndexE
  | Found s _ =>
      if kw_reload then Raise TypeE
      else spectra w (Args (a_num a) (a_base a) (PRows true (draw seed numlos (SetupModel.box s))) (AVec true (repeat 1%R numlos))
                           (a_nbins a) (a_res a) (a_savefile a) (a_savedir a) true (a_units a) (a_kernel a) (a_Hz a) (a_gasprop a))
  end.
