(** Model of fake_spectra/halospectra.py and fake_spectra/randspectra.py, with the halo selection of fake_spectra/halocat.py over
    exact reals. *)
From Coq Require Import ZArith List Bool Reals.
From Flocq Require Import Core.
Import ListNotations.
Local Open Scope R_scope.

(** ** Halos *)

(** A point or a row of an array of positions. *)
Definition point := (R * R * R)%type.

(** A row of the halo catalogue: mass, position and radius. *)
Record halo := mkHalo { h_mass : R; h_pos : point; h_rad : R }.

(** halocat.py:19: in each coordinate nearer than [r]; not periodic. *)
Definition near (r : R) (a b : point) : bool :=
  match a, b with (x, y, z), (x', y', z') =>
    (if Rlt_dec (Rabs (x - x')) r then true else false) &&
    (if Rlt_dec (Rabs (y - y')) r then true else false) &&
    (if Rlt_dec (Rabs (z - z')) r then true else false)
  end.

(** halocat.py:17-21 (true if the halo is to be kept). *)
Definition is_masked (h : halo) (hs : list halo) : bool :=
  negb (existsb (fun h' => near (h_rad h) (h_pos h') (h_pos h) && (if Rlt_dec (h_mass h) (h_mass h') then true else false)) hs).

(** halocat.py:10-13: the unit conversion. *)
Definition to_solar (m : R) : R := m * 1.989e43 / 1.989e33.

(** halocat.py:35-46, without the indices. *)
Definition find_all_halos (cat : list halo) (min_mass : R) : list halo :=
  map (fun h => mkHalo (to_solar (h_mass h)) (h_pos h) (h_rad h))
    (filter (fun h => if Rlt_dec min_mass (h_mass h) then true else false) cat).

(** halocat.py:62-71 with dist = 1. *)
Definition find_wanted_halos (cat : list halo) (min_mass : R) : list halo :=
  let hs := find_all_halos cat min_mass in filter (fun h => is_masked h hs) hs.

(** halospectra.py:29-34 *)
Definition chosen (cat : list halo) (min_mass max_mass : R) : list halo :=
  filter (fun h => if Rlt_dec (h_mass h) max_mass then true else false) (find_wanted_halos cat (min_mass / 1e10)).

(** ** Sightlines through halos *)

(** numpy repeat along the first axis (halospectra.py:40, 56, 62). *)
Definition np_repeat {A} (n : nat) (l : list A) : list A := flat_map (fun x => repeat x n) l.

(** halospectra.py:60-66 for one sightline: a point of the sphere of radius [maxr] about [c]; [u], [v] and [w] are the numbers
    in [0, 1) drawn for it. *)
Definition perturb (c : point) (maxr u v w : R) : point :=
  let theta := 2 * PI * u - PI in
  let phi := 2 * PI * v in
  let rr := maxr * w in
  match c with (x, y, z) => (x + rr * (sin theta * cos phi), y + rr * (sin theta * sin phi), z + rr * cos theta) end.

(** The draws for all sightlines: three arrays of NumLos numbers (halospectra.py:60-62). *)
Definition draws := list (R * R * R).

(** halospectra.py:52-67.  [rand] has one entry per sightline. *)
Definition get_cofm (hs : list halo) (rep : nat) (offset : R) (rand : draws) : list point :=
  map (fun p => match p with (h, (u, v, w)) => perturb (h_pos h) (h_rad h * offset) u v w end)
    (combine (np_repeat rep hs) rand).

(** halospectra.py:35-41: the axes of the sightlines. *)
Definition axes (hs : list halo) (rep : nat) : list Z := np_repeat rep (repeat 1%Z (length hs)).

(** halospectra.py:103-106 with Python 3's division: the quotient is a float, also where the division has no remainder.
    [index] stands for numpy's indexing of an array, by an integer or by a float, the latter being an IndexError (None). *)
Inductive number := AsInt (n : Z) | AsFloat (x : R).
(** halospectra.py:103-106, with the definition above. *)
Definition index {A} (l : list A) (i : number) : option A :=
  match i with
  | AsInt n => if (0 <=? n)%Z then nth_error l (Z.to_nat n) else if (- Z.of_nat (length l) <=? n)%Z then nth_error l (Z.to_nat (Z.of_nat (length l) + n)) else None
  | AsFloat _ => None
  end.
(** halospectra.py:103-106, with the definition above. *)
Definition true_div (a b : nat) : number := AsFloat (INR a / INR b).
(** halospectra.py:103-106, with the definition above. *)
Definition find_associated_halo (hs : list halo) (rep num : nat) : option halo := index hs (true_div num rep).

(** ** The save file *)

(** A file: its halos group, if any, and the rest as Spectra writes it, if complete (None: Header, spectra or one of the groups
    of arrays is missing). *)
Section File.
Context {H B : Type}.
Record file := mkFile { fh : option H; fb : option B }.

(** The save file and its backup; None: no such file.  Files that are torn or locked are left out. *)
Record disk := mkDisk { d_main : option file; d_back : option file }.

(** What constructing an object does: it computes the spectra from the snapshot, or an AttributeError escapes. *)
Inductive built := FromSnapshot | AttributeErr.

(** halospectra.py:18-44 and spectra.py:81-84, 160-163.  Without a file, or where a group is missing from it, the exception is
    caught and the spectra come from the snapshot; then a pixel width, which arrives in the place of the MPI module, is an
    AttributeError (spectra.py:95).  With a complete file Spectra.load_savefile (85-96) fails on the dictionaries that do
    not exist yet (spectra.py:456-486), or if there is no array in the file, None.astype fails at spectra.py:163. *)
Definition construct (d : disk) (res : option R) : built :=
  match d_main d with
  | Some (mkFile (Some _) (Some _)) => AttributeErr
  | _ => match res with None => FromSnapshot | Some _ => AttributeErr end
  end.

(** halospectra.py:69-83 and spectra.py:266-291, as the disk after each step; the second component is false if the save ended in
    an exception.  The file is opened for appending and created if absent; create_group raises if the group is there. *)
Definition save_steps (h : H) (b : B) (d : disk) : list disk * bool :=
  let old := match d_main d with None => mkFile None None | Some f => f end in
  match fh old with
  | Some _ => ([d], false)
  | None =>
      let appended := mkFile (Some h) (fb old) in
      ([d; mkDisk (Some appended) (d_back d); mkDisk None (Some appended); mkDisk (Some (mkFile None (Some b))) (Some appended)], true)
  end.

(** A save that runs to its end. *)
Definition save (h : H) (b : B) (d : disk) : disk := last (fst (save_steps h b d)) d.
End File.
Arguments file : clear implicits. Arguments disk : clear implicits.

(** ** Random sightlines *)

(** Double precision, rounding to nearest even. *)
Definition b64 : Z -> Z := FLT_exp (-1074) 53.
Definition rnd (x : R) : R := round radix2 b64 (Znearest (fun n => negb (Z.even n))) x.

(** numpy's random_sample returns k/2^53 with 0 <= k < 2^53. *)
Definition sample (k : Z) : R := IZR k / 2 ^ 53.

(** randspectra.py:32-37 for one coordinate, and for all. *)
Definition rand_coord (box : R) (k : Z) : R := rnd (box * sample k).
(** randspectra.py:32-37, with the definition above. *)
Definition rand_cofm (box : R) (ks : list (Z * Z * Z)) : list point :=
  map (fun k => match k with (a, b, c) => (rand_coord box a, rand_coord box b, rand_coord box c) end) ks.
