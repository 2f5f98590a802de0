(** Model of the spectra cache and its save file: Spectra.save_file, _save_file, _load_all_multihash,
    _save_multihash, _really_load_array, load_savefile (fake_spectra/spectra.py:266-374, 430-499), the cached
    accessors (862-1045), the statistics that change the cached array in place (1272-1323), and what
    replace_not_DLA leaves in the cache (748-757).  The num_important group is never filled and left out.

    [A]: arrays, with their np.size and np.array([0]), the placeholder of an array not read yet.
    [H]: everything that is written and read back as one value: the header attributes and the sightlines
    (295-308, 440-452, 492-499).  Element names are path components (no "/").  Only rank 0, which does the saving. *)
From Coq Require Import ZArith List String Bool DecimalString Decimal.
Import ListNotations.
Local Open Scope Z_scope.

(** ** Keys and names *)

(** The dictionaries with keys (elem, ion); velocity, temperature and density-weighted density are derived from
    the column density. *)
Inductive plain := TauObs | ColDen.
Inductive derived := Velocity | Temperature | DensWeightDens.

(** A dictionary of the object together with a key of it. *)
Inductive key :=
| KTau (elem : string) (ion line : Z)
| KPlain (p : plain) (elem : string) (ion : Z)
| KDerived (d : derived) (elem : string) (ion : Z).

(** Top-level groups of the file, spectra.py:309-328. *)
Inductive group := GTau | GPlain (p : plain) | GDerived (d : derived).

(** Equality of dictionary keys (helper). *)
Definition key_dec : forall k k' : key, {k = k'} + {k <> k'}.
Proof. repeat decide equality; apply Ascii.ascii_dec. Defined.
(** Equality of paths in the file (helper). *)
Definition path_dec : forall p p' : group * list string, {p = p'} + {p <> p'}.
Proof. repeat decide equality; apply Ascii.ascii_dec. Defined.

(** str(n) and int(s) of python on decimal integers. *)
Definition str (n : Z) : string := NilZero.string_of_int (Z.to_int n).
Definition int (s : string) : option Z := option_map Z.of_int (NilZero.int_of_string s).

(** The nearest double of an integer, ties to even (float(s), 474). *)
Definition float_of (n : Z) : Z :=
  let m := Z.abs n in
  if m <=? 2 ^ 53 then n
  else let e := Z.log2 m - 52 in
       let q := m / 2 ^ e in
       let r := m mod 2 ^ e in
       let up := if r <? 2 ^ (e - 1) then false else if 2 ^ (e - 1) <? r then true else Z.odd q in
       Z.sgn n * ((q + if up then 1 else 0) * 2 ^ e).

(** spectra.py:343-357, 367-370: where a key is stored. *)
Definition path (k : key) : group * list string :=
  match k with
  | KTau e i l => (GTau, [e; str i; str l])
  | KPlain p e i => (GPlain p, [e; str i])
  | KDerived d e i => (GDerived d, [e; str i])
  end.

(** spectra.py:453-487: the key made from the names in the file; [None]: ValueError, or a dataset at another depth. *)
Definition key_of (p : group * list string) : option key :=
  match p with
  | (GTau, [e; i; l]) => match int i, int l with Some i', Some l' => Some (KTau e i' (float_of l')) | _, _ => None end
  | (GPlain g, [e; i]) => option_map (KPlain g e) (int i)
  | (GDerived g, [e; i]) => option_map (KDerived g e) (int i)
  | _ => None
  end.

(** ** Python dictionaries and HDF5 groups *)
Section Dict.
Context {K V : Type} (dec : forall x y : K, {x = y} + {x <> y}).
(** d[k]; [None] is KeyError. *)
Fixpoint get (d : list (K * V)) (k : K) : option V :=
  match d with [] => None | (k', v) :: d' => if dec k k' then Some v else get d' k end.
(** d[k] = v. *)
Fixpoint set (d : list (K * V)) (k : K) (v : V) : list (K * V) :=
  match d with
  | [] => [(k, v)]
  | (k', v') :: d' => if dec k k' then (k', v) :: d' else (k', v') :: set d' k v
  end.
End Dict.

(** Exceptions: KeyError, IOError (OSError), ValueError. *)
Inductive exn := KeyError | IOError | ValueError.
(** A value or an exception. *)
Inductive res (X : Type) := Ok (x : X) | Err (e : exn).
Arguments Ok {X}. Arguments Err {X}.

Section Store.
Context {A H : Type} (size : A -> nat) (hole : A).

(** The object: what is in the header, and the cached arrays. *)
Record obj := { hdr : H; cache : list (key * A) }.

(** A complete file.  [present]: old files lack some groups. *)
Record file := { f_hdr : H; present : group -> bool; f_data : list (group * list string * A) }.

(** The save file or its backup.  [Torn]: opened for writing and not closed; reading it raises. *)
Inductive fstate := Absent | Torn | Good (f : file).
(** The two files. *)
Record disk := { main : fstate; backup : fstate }.

(** An array put into the cache. *)
Definition upd (o : obj) (k : key) (a : A) : obj := {| hdr := hdr o; cache := set key_dec (cache o) k a |}.

(** spectra.py:366-374: read a dataset. *)
Definition read (f : fstate) (k : key) : res A :=
  match f with
  | Good F => if present F (fst (path k))
              then match get path_dec (f_data F) (path k) with Some a => Ok a | None => Err KeyError end
              else Err KeyError
  | _ => Err IOError
  end.

(** _really_load_array, spectra.py:359-374 *)
Definition really_load (f : fstate) (k : key) (o : obj) : res obj :=
  match get key_dec (cache o) k with
  | None => Err KeyError
  | Some a => if Nat.ltb 1 (size a) then Ok o
              else match read f k with Ok a' => Ok (upd o k a') | Err e => Err e end
  end.

(** ** The accessors.  [fresh k]: compute_spectra for the present sightlines; [weighted k c]: the
    mass-weighted quantity computed with the column density array c (spectra.py:942-1045). *)
Variable fresh : key -> A.
Variable weighted : key -> A -> A.

(** get_col_density 862, get_tau 881, get_observer_tau 895 *)
Definition get_plain (f : fstate) (force : bool) (k : key) (o : obj) : res (A * obj) :=
  match (if force then Err KeyError else really_load f k o) with
  | Ok o' => match get key_dec (cache o') k with Some a => Ok (a, o') | None => Err KeyError end
  | Err KeyError => Ok (fresh k, upd o k (fresh k))
  | Err e => Err e
  end.

(** get_velocity 983, get_temp 1004, get_dens_weighted_density 1025, with _get_mass_weight_quantity spectra.py:957-981,
    which calls get_density, and so get_col_density. *)
Definition get_derived (f : fstate) (d : derived) (e : string) (i : Z) (o : obj) : res (A * obj) :=
  let k := KDerived d e i in
  match really_load f k o with
  | Ok o' => match get key_dec (cache o') k with Some a => Ok (a, o') | None => Err KeyError end
  | Err KeyError =>
      match get_plain f false (KPlain ColDen e i) o with
      | Ok (c, o1) => let a := weighted k c in Ok (a, upd o1 k a)
      | Err x => Err x
      end
  | Err x => Err x
  end.

(** The access to an array by its getter. *)
Definition access (f : fstate) (force : bool) (k : key) (o : obj) : res (A * obj) :=
  match k with
  | KDerived d e i => get_derived f d e i o
  | _ => get_plain f force k o
  end.

(** The statistics of spectra.py:1272-1323: fetch the optical depth and change the array in place, which is also the array in
    the cache.  [change]: what is done to it, [None] if that raises or does not end. *)
Definition statistic (f : fstate) (change : A -> option A) (e : string) (i l : Z) (o : obj) : option (res (A * obj)) :=
  match get_plain f false (KTau e i l) o with
  | Ok (a, o') => match change a with Some a' => Some (Ok (a', upd o' (KTau e i l) a')) | None => None end
  | Err x => Some (Err x)
  end.

(** ** Saving *)
Definition in_group (g : group) (k : key) : bool :=
  match g, k with
  | GTau, KTau _ _ _ => true
  | GPlain TauObs, KPlain TauObs _ _ => true
  | GPlain ColDen, KPlain ColDen _ _ => true
  | GDerived Velocity, KDerived Velocity _ _ => true
  | GDerived Temperature, KDerived Temperature _ _ => true
  | GDerived DensWeightDens, KDerived DensWeightDens _ _ => true
  | _, _ => false
  end.

(** _load_all_multihash, spectra.py:333-337; also returns the object as it is when the exception is raised. *)
Fixpoint load_keys (f : fstate) (ks : list key) (o : obj) : obj * option exn :=
  match ks with
  | [] => (o, None)
  | k :: ks' => match really_load f k o with Ok o' => load_keys f ks' o' | Err e => (o, Some e) end
  end.
(** spectra.py:333-337, with the definition above. *)
Definition load_all (f : fstate) (g : group) (o : obj) : obj * option exn :=
  load_keys f (filter (in_group g) (map fst (cache o))) o.

(** spectra.py:274-280: what is loaded before saving. *)
Definition load_before_save (f : fstate) (o : obj) : res obj :=
  match load_all f (GPlain TauObs) o with
  | (_, Some e) => Err e
  | (o1, None) =>
      match load_all f GTau o1 with
      | (_, Some e) => Err e
      | (o2, None) =>
          match load_all f (GPlain ColDen) o2 with
          | (_, Some e) => Err e
          | (o3, None) =>
              match load_all f (GDerived Velocity) o3 with
              | (o4, None) => Ok o4
              | (o4, Some IOError) => Ok o4
              | (_, Some e) => Err e
              end
          end
      end
  end.

(** _save_file and _save_multihash, spectra.py:293-331, 339-357: the file written. *)
Definition contents (o : obj) : file :=
  {| f_hdr := hdr o; present := fun _ => true;
     f_data := fold_left (fun d ka => set path_dec d (path (fst ka)) (snd ka)) (cache o) [] |}.

(** spectra.py:284-291, as atomic steps on the disk: the states passed through, the last one being that of a completed save.
    The move is a rename. *)
Definition moved (d : disk) : disk :=
  match main d with Absent => d | m => {| main := Absent; backup := m |} end.
(** spectra.py:284-291, with the definition above. *)
Definition save_states (F : file) (d : disk) : list disk :=
  [d; moved d; {| main := Torn; backup := backup (moved d) |}; {| main := Good F; backup := backup (moved d) |}].

(** save_file, spectra.py:266-291, when not interrupted. *)
Definition save (d : disk) (o : obj) : res (obj * disk) :=
  match load_before_save (main d) o with
  | Err e => Err e
  | Ok o' => Ok (o', last (save_states (contents o') d) d)
  end.

(** ** Loading *)
(** load_savefile, spectra.py:430-499 *)
Fixpoint load_names (ps : list (group * list string)) (c : list (key * A)) : option (list (key * A)) :=
  match ps with
  | [] => Some c
  | p :: ps' => match key_of p with Some k => load_names ps' (set key_dec c k hole) | None => None end
  end.
(** spectra.py:430-499, with the definition above. *)
Definition load (f : fstate) : res obj :=
  match f with
  | Good F =>
      if present F GTau && present F (GPlain TauObs) && present F (GPlain ColDen) then
        match load_names (filter (fun p => present F (fst p)) (map fst (f_data F))) [] with
        | Some c => Ok {| hdr := f_hdr F; cache := c |}
        | None => Err ValueError
        end
      else Err KeyError
  | _ => Err IOError
  end.

(** ** Histories of calls on one object *)
Inductive op := Get (force : bool) (k : key) | Save.

(** A history of calls, one after the other. *)
Fixpoint run (ops : list op) (d : disk) (o : obj) : res (list A * disk * obj) :=
  match ops with
  | [] => Ok ([], d, o)
  | Get force k :: ops' =>
      match access (main d) force k o with
      | Ok (a, o') => match run ops' d o' with Ok (l, d', o'') => Ok (a :: l, d', o'') | Err e => Err e end
      | Err e => Err e
      end
  | Save :: ops' =>
      match save d o with Ok (o', d') => run ops' d' o' | Err e => Err e end
  end.

(** What replace_not_DLA (spectra.py:748-757) leaves in the cache: the new column densities under ("H", 1), all else kept; the
    sightlines are part of the header. *)
Definition replaced (h : H) (colden : A) (o : obj) : obj :=
  {| hdr := h; cache := set key_dec (cache o) (KPlain ColDen "H" 1) colden |}.

(** ** Histories of saves on one disk, with crashes *)
(** Where a save is interrupted: before the move, after it, while writing. *)
Inductive point := BeforeMove | AfterMove | Writing.
(** A save that is completed, and one that is interrupted. *)
Inductive event := Completed (F : file) | Crashed (F : file) (p : point).
(** The files after it. *)
Definition after (e : event) (d : disk) : disk :=
  match e with
  | Completed F => nth 3 (save_states F d) d
  | Crashed F BeforeMove => nth 0 (save_states F d) d
  | Crashed F AfterMove => nth 1 (save_states F d) d
  | Crashed F Writing => nth 2 (save_states F d) d
  end.
(** The files after several. *)
Definition history (es : list event) (d : disk) : disk := fold_left (fun d e => after e d) es d.
End Store.
Arguments obj : clear implicits. Arguments file : clear implicits. Arguments fstate : clear implicits.
Arguments disk : clear implicits. Arguments event : clear implicits.
