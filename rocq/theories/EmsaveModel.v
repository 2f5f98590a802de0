(** Model of EmissionSpectra.save_file (fake_spectra/emission.py:91-116) beside Spectra.save_file (fake_spectra/spectra.py:266-291):
    what is read before writing, what happens when the file system refuses a step, and what several MPI processes saving at the same
    time do to the save file and its backup.  Built on StoreModel.  The dictionary stellar of emission.py:44 is empty on every object
    a user can make (C81) and is left out, with the group it is written to. *)
From Coq Require Import ZArith List String Bool.
From Verif Require Import StoreModel.
Import ListNotations.

Section Single.
Context {A H : Type} (size : A -> nat) (hole : A).

(** spectra.py:333-337 and 359-374 as called by emission.py:101-102: the dictionary of column densities with the name of the group
    of velocities.  A column density that still has at most one element is replaced by the velocity in the file. *)
Definition load_velocity_as_column (f : fstate A H) (e : string) (i : Z) (o : obj A H) : res (obj A H) :=
  match get key_dec (cache o) (KPlain ColDen e i) with
  | None => Err KeyError
  | Some a => if Nat.ltb 1 (size a) then Ok o
              else match read f (KDerived Velocity e i) with
                   | Ok a' => Ok (upd o (KPlain ColDen e i) a')
                   | Err x => Err x
                   end
  end.
(** The same for all keys, one after the other. *)
Fixpoint load_columns (f : fstate A H) (ks : list key) (o : obj A H) : obj A H * option exn :=
  match ks with
  | [] => (o, None)
  | KPlain ColDen e i :: ks' =>
      match load_velocity_as_column f e i o with Ok o' => load_columns f ks' o' | Err x => (o, Some x) end
  | _ :: ks' => load_columns f ks' o
  end.

(** emission.py:96-104 *)
Definition em_load_before_save (f : fstate A H) (o : obj A H) : res (obj A H) :=
  match load_all size f (GPlain TauObs) o with
  | (_, Some e) => Err e
  | (o1, None) =>
      match load_all size f GTau o1 with
      | (_, Some e) => Err e
      | (o2, None) =>
          match load_all size f (GPlain ColDen) o2 with
          | (_, Some e) => Err e
          | (o3, None) =>
              match load_columns f (map fst (cache o3)) o3 with
              | (o4, None) => Ok o4
              | (o4, Some IOError) => Ok o4
              | (_, Some e) => Err e
              end
          end
      end
  end.

(** emission.py:91-116 when the file system refuses nothing. *)
Definition em_save (d : disk A H) (o : obj A H) : res (obj A H * disk A H) :=
  match em_load_before_save (main d) o with
  | Err e => Err e
  | Ok o' => Ok (o', last (save_states (contents o') d) d)
  end.
End Single.

(** ** A file system that may refuse *)

(** Is the directory there; can it be made; does the move succeed; does each attempt to open for writing.  A refused step leaves
    the files as they are. *)
Record environ := { dir_there : bool; mkdir_works : bool; move_works : bool; open_works : bool; reopen_works : bool }.

Section Refusals.
Context {A H : Type}.

(** os.path.exists. *)
Definition exists_file (f : fstate A H) : bool := match f with Absent => false | _ => true end.

(** Opening for writing, writing and closing: the states of the disk from then on. *)
Definition written_over (F : file A H) (d : disk A H) : list (disk A H) :=
  [{| main := Torn; backup := backup d |}; {| main := Good F; backup := backup d |}].

(** spectra.py:280-291: the states of the disk and whether an IOError is raised. *)
Definition base_attempt (env : environ) (F : file A H) (d : disk A H) : list (disk A H) * bool :=
  if negb (dir_there env) && negb (mkdir_works env) then ([d], true)
  else if exists_file (main d) && negb (move_works env) then ([d], true)
  else let d' := moved d in
       if open_works env then (d :: d' :: written_over F d', false) else ([d; d'], true).

(** emission.py:105-113: an IOError of the move or of opening leads to a second attempt at opening.  The directory is not made. *)
Definition em_attempt (env : environ) (F : file A H) (d : disk A H) : list (disk A H) * bool :=
  let retry d' := if dir_there env && reopen_works env then (written_over F d', false) else ([], true) in
  if exists_file (main d) && negb (move_works env)
  then (d :: fst (retry d), snd (retry d))
  else let d' := moved d in
       if dir_there env && open_works env then (d :: d' :: written_over F d', false)
       else (d :: d' :: fst (retry d'), snd (retry d')).
End Refusals.

(** ** Several processes *)

(** Contents of a file: being written, or complete. *)
Inductive body (X : Type) := Partial | Whole (x : X).
Arguments Partial {X}. Arguments Whole {X}.

Section Ranks.
Variable X : Type.

(** The shared file system: the files the two names refer to, the contents of each file, who opened which file for writing; and how
    far each process has come and whether it saw a save file.  Renaming keeps the file. *)
Record shared := {
  main_name : option nat; backup_name : option nat;
  body_of : nat -> body X; next_file : nat; handles : list (nat * nat);
  progress : nat -> nat; saw : nat -> bool
}.

(** A function changed at one place (helper). *)
Definition put {V : Type} (f : nat -> V) (k : nat) (v : V) : nat -> V := fun k' => if Nat.eqb k' k then v else f k'.

(** Process [r] goes on to its next step (helper). *)
Definition advance (r : nat) (s : shared) : shared :=
  {| main_name := main_name s; backup_name := backup_name s; body_of := body_of s; next_file := next_file s;
     handles := handles s; progress := put (progress s) r (S (progress s r)); saw := saw s |}.

(** path.exists, emission.py:106 *)
Definition check (r : nat) (s : shared) : shared :=
  {| main_name := main_name s; backup_name := backup_name s; body_of := body_of s; next_file := next_file s;
     handles := handles s; progress := progress s;
     saw := put (saw s) r (match main_name s with Some _ => true | None => false end) |}.

(** shutil.move, emission.py:107; if the file is gone the error is caught (109). *)
Definition move (r : nat) (s : shared) : shared :=
  match saw s r, main_name s with
  | true, Some k => {| main_name := None; backup_name := Some k; body_of := body_of s; next_file := next_file s;
                       handles := handles s; progress := progress s; saw := saw s |}
  | _, _ => s
  end.

(** h5py.File(savefile, 'w'), emission.py:108, 111: truncates the file under the name, or makes one.  A second writer is not
    refused (whether it is depends on file locking). *)
Definition open_write (r : nat) (s : shared) : shared :=
  let k := match main_name s with Some k => k | None => next_file s end in
  {| main_name := Some k; backup_name := backup_name s; body_of := put (body_of s) k Partial;
     next_file := Nat.max (next_file s) (S k); handles := (r, k) :: handles s; progress := progress s; saw := saw s |}.

(** emission.py:114-116: writing and closing.  The file is complete if nobody else opened it for writing. *)
Definition close (new : X) (r : nat) (s : shared) : shared :=
  match find (fun h => Nat.eqb (fst h) r) (handles s) with
  | Some (_, k) =>
      let alone := Nat.eqb (List.length (filter (fun h => Nat.eqb (snd h) k) (handles s))) 1 in
      {| main_name := main_name s; backup_name := backup_name s;
         body_of := put (body_of s) k (if alone then Whole new else Partial);
         next_file := next_file s; handles := handles s; progress := progress s; saw := saw s |}
  | None => s
  end.

(** The next step of process r in EmissionSpectra.save_file; [new r] is what it writes. *)
Definition em_step (new : nat -> X) (s : shared) (r : nat) : shared :=
  match progress s r with
  | 0 => advance r (check r s)
  | 1 => advance r (move r s)
  | 2 => advance r (open_write r s)
  | 3 => advance r (close (new r) r s)
  | _ => s
  end%nat.

(** The same for Spectra.save_file, spectra.py:272-291: only process 0 does anything. *)
Definition base_step (new : nat -> X) (s : shared) (r : nat) : shared :=
  if Nat.eqb r 0 then em_step new s r else s.

(** A schedule: which process makes the next step. *)
Definition em_run (new : nat -> X) (sched : list nat) (s : shared) : shared := fold_left (em_step new) sched s.
(** A schedule of Spectra.save_file, spectra.py:272-291. *)
Definition base_run (new : nat -> X) (sched : list nat) (s : shared) : shared := fold_left (base_step new) sched s.

(** Before the call: a complete save file, and maybe a backup. *)
Definition before (old : X) (b : option (body X)) : shared :=
  {| main_name := Some 0%nat; backup_name := match b with Some _ => Some 1%nat | None => None end;
     body_of := fun k => match k with 0%nat => Whole old | 1%nat => match b with Some c => c | None => Partial end | _ => Partial end;
     next_file := 2; handles := []; progress := fun _ => 0%nat; saw := fun _ => false |}.

(** What is found under a name. *)
Definition under (s : shared) (n : option nat) : option (body X) := option_map (body_of s) n.
End Ranks.
Arguments main_name {X}. Arguments backup_name {X}. Arguments body_of {X}. Arguments next_file {X}. Arguments handles {X}.
Arguments progress {X}. Arguments saw {X}. Arguments em_run {X}. Arguments base_run {X}. Arguments before {X}. Arguments under {X}.
Arguments em_step {X}. Arguments base_step {X}.
