(** Model of fake_spectra/spectra.py find_all_particles (619-629) and of reading all segments before the interpolation (501-526), with the
    call that counts the segments, on top of the particle arrays of ParticleModel. *)
From Coq Require Import Reals List Bool ZArith Arith.
From Verif Require Import ParticleModel.
Import ListNotations.
Local Open Scope R_scope.

(** The class of the snapshot. *)
Inductive format := HDF5 | BigFile.

(** get_n_segments as called by the two functions, without an argument: abstractsnapshot.py:236-238 has a default, 337 has none, so
    that python raises TypeError (None).  [count] is the number of files, or of chunks, of this rank. *)
Definition count_segments (f : format) (count : nat) : option nat :=
  match f with HDF5 => Some count | BigFile => None end.

(** How a call ends: with a value, with the TypeError of the missing argument (abstractsnapshot.py:337), or with another exception. *)
Inductive outcome (A : Type) := Done (a : A) | TypeError | Failed.
Arguments Done {A}. Arguments TypeError {A}. Arguments Failed {A}.

(** spectra.py:625: all of the hydrogen, no optical depth. *)
Definition hydrogen (rscale mass : R) : request := Request true (-1) false rscale mass.

(** spectra.py:624-628: the loop over the segments [i], [i]+1, ..., with the positions and lengths collected so far and the index lists
    remembered by the object.  Simplified: the conversion to 32 bit floats of the read. *)
Fixpoint collect (near : list vec -> list R -> list nat) (final : bool) (tb : table) (q : request) (segs : nat -> segment)
  (n i : nat) (c : cache) (pp : list vec) (hhh : list R) : outcome (list vec * list R) * cache :=
  match n with
  | O => (Done (pp, hhh), c)
  | S n' =>
      let (r, c') := read_particle_data near final tb q c i (segs i) in
      match r with
      | Read a => collect near final tb q segs n' (S i) c' (pp ++ a_pos a) (hhh ++ a_hh a)
      | Nothing => collect near final tb q segs n' (S i) c' pp hhh
      | IndexError => (Failed, c')
      end
  end.

(** spectra.py:619-629 find_all_particles. *)
Definition find_all_particles (f : format) (count : nat) (near : list vec -> list R -> list nat) (final : bool) (tb : table)
  (rscale mass : R) (segs : nat -> segment) (c : cache) : outcome (list vec * list R) * cache :=
  match count_segments f count with
  | None => (TypeError, c)
  | Some n => collect near final tb (hydrogen rscale mass) segs n 0 c [] []
  end.

(** spectra.py:505-526: the further segments. *)
Fixpoint further (near : list vec -> list R -> list nat) (final : bool) (tb : table) (q : request) (segs : nat -> segment)
  (n i : nat) (c : cache) (acc : read_result) : read_result * cache :=
  match n with
  | O => (acc, c)
  | S n' =>
      let (r, c') := read_particle_data near final tb q c i (segs i) in
      match r with
      | IndexError => (IndexError, c')
      | _ => further near final tb q segs n' (S i) c' (add_segment q acc r)
      end
  end.

(** spectra.py:501-526 for the Voronoi kernel (815-817): the arrays handed to the interpolation of segment 0. *)
Definition load_all (f : format) (count : nat) (near : list vec -> list R -> list nat) (final : bool) (tb : table)
  (q : request) (segs : nat -> segment) (c : cache) : outcome read_result * cache :=
  let (r, c') := read_particle_data near final tb q c 0 (segs 0%nat) in
  match r with
  | IndexError => (Failed, c')
  | _ =>
      match count_segments f count with
      | None => (TypeError, c')
      | Some n =>
          match further near final tb q segs (n - 1) 1 c' r with
          | (IndexError, c'') => (Failed, c'')
          | (r', c'') => (Done r', c'')
          end
      end
  end.
