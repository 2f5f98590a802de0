(** Model of the C extractor on a Gadget binary snapshot: cextract/read_snapshot.cpp and the branch of main.cpp which calls it.
    The GadgetReader library is what it hands over: the header and, by name, the numbers of the gas particles of a block.
    The last loop of load_snapshot (122-123) uses an index that is not declared; it is modelled with the declaration added. *)
From Coq Require Import Ascii String.
From Coq Require Import Reals List Bool ZArith Arith.
From Verif Require Import CreadModel.
Import ListNotations.
Local Open Scope R_scope.

(** A snapshot as GadgetReader::GSnap sees it: GetNumFiles, GetNpart(0), flag_cooling, the rest of the header, the blocks. *)
Record gsnap := mkGsnap { n_files : Z; n_gas : nat; g_cooling : bool; g_time : R; g_redshift : R; g_box : R; g_hubble : R;
  g_omega0 : R; g_omegal : R; g_block : string -> option (list R) }.

(** GSnap::GetBlock(name, array, np, 0, ...): at most the numbers of np particles are written; a missing block writes nothing.  The
    value returned is not looked at. *)
Definition get_block (s : gsnap) (name : string) (width np : nat) (a : array) : array :=
  match g_block s name with
  | Some v => fill a (firstn (width * np) v)
  | None => a
  end.

(** read_snapshot.cpp:25-50 load_header; [None] is the return value -1. *)
Definition load_header (s : gsnap) : option hdf_header :=
  if (n_files s <=? 0)%Z then None
  else Some (mkHdf (g_time s) (g_redshift s) (hz (g_time s) (g_hubble s) (g_omega0 s) (g_omegal s)) (g_box s) (g_hubble s)).

(** How load_snapshot ends: no particles, exit(0), a comparison with memory nobody has written, or particles. *)
Inductive load := NoGas | Stops | Unknown | Loaded (n : nat) (p : parts).

(** read_snapshot.cpp:77-81: the densities are compared with the first one. *)
Inductive comparison := Same | Differ | Undefined.
(** read_snapshot.cpp:77-81, with the definition above. *)
Fixpoint compare (first : option R) (a : array) (n : nat) : comparison :=
  match n, a with
  | S n', x :: a' =>
      match x, first with
      | Some y, Some z => if Req_EM_T y z then compare first a' n' else Differ
      | _, _ => Undefined
      end
  | _, _ => Same
  end.

(** read_snapshot.cpp:94-106: the electrons, and the array h, which serves as scratch space.  [split] is SPLIT_NE. *)
Definition read_electrons (split : bool) (s : gsnap) (np : nat) (ne h : array) : array * array :=
  if split then
    let ne := get_block s "NHP " 1 np ne in
    let h := get_block s "NHEP" 1 np h in
    let ne := zip_first np (olift2 Rplus) ne h in
    let h := get_block s "NHEQ" 1 np h in
    (zip_first np (olift2 (fun e x => e + 2 * x)) ne h, h)
  else (get_block s "NE  " 1 np ne, h).

(** read_snapshot.cpp:54-132 load_snapshot for StartPart = 0; the preprocessor symbol HELIUM is not defined.  Memory is assumed to
    suffice and the number of particles to be an int.  Printing of particle values (126-132) is not modelled. *)
Definition load_snapshot (split : bool) (s : gsnap) : load :=
  let np := n_gas s in
  if Nat.eqb np 0 then NoGas else
  let p := alloc_parts np in
  let pos := get_block s "POS " 3 np (p_pos p) in
  let vel := get_block s "VEL " 3 np (p_vel p) in
  let dens := get_block s "RHO " 1 np (p_dens p) in
  match compare (at_ dens 0) dens np with
  | Differ => Stops
  | Undefined => Unknown
  | Same =>
      let u := get_block s "U   " 1 np (p_u p) in
      let '(ne, h, frac) :=
        if g_cooling s then
          let '(ne, h) := read_electrons split s np (p_ne p) (p_h p) in
          (ne, h, get_block s "NH  " 1 np (p_frac p))
        else (p_ne p, p_h p, p_frac p) in
      let h := map_first np (olift1 (fun x => x / 2)) (get_block s "HSML" 1 np h) in
      Loaded np (mkParts pos vel dens u ne (p_temp p) h frac)
  end.

(** ** The program *)

Section Main.
(** The interpolation gives optical depths and column densities; bytes of doubles and ints. *)
Context (interp : hdf_header -> list used -> list R * list R).
Context (byte : Type) (put_double : R -> list byte) (put_int : Z -> list byte).

(** How main ends: the exit status and the output file, [None] if it was not touched; or in a way that depends on memory nobody has
    written. *)
Inductive ending := Ends (status : Z) (out : option (list byte)) | Depends.

(** main.cpp:176-260 for a file which is not HDF5; [can_open] tells whether fopen of the output file succeeds, [numlos] is the number of
    sightlines, whose table (182-184, see C48 to C50) is assumed to be read without error. *)
Definition run (split can_open : bool) (numlos : Z) (s : gsnap) : ending :=
  match load_header s with
  | None => Ends 2 None
  | Some hd =>
      if negb can_open then Ends 1 None
      else
        match load_snapshot split s with
        | NoGas => Ends 2 (Some [])
        | Stops => Ends 0 (Some [])
        | Unknown => Depends
        | Loaded n p =>
            let '(tau, colden) := interp hd (converted (k_time hd) (k_hubble hd) (Z.of_nat n) p) in
            Ends 0 (Some (write_spectra byte put_double put_int (k_redshift hd) (k_box hd) numlos tau colden))
        end
  end.
End Main.
