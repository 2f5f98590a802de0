(** Specification for Gadget binary snapshots in the C extractor. *)
From Coq Require Import Ascii String.
From Coq Require Import Reals List Bool ZArith Arith.
From Verif Require Import CreadModel CreadSpec GreadModel.
Import ListNotations.
Local Open Scope R_scope.

(** A block with (at least) [width] numbers for every gas particle. *)
Definition holds (s : gsnap) (name : string) (width : nat) (v : list R) : Prop :=
  g_block s name = Some v /\ (width * n_gas s <= length v)%nat.
Definition lacks (s : gsnap) (name : string) (width : nat) : Prop := ~ exists v, holds s name width v.

(** All gas particles have one density. *)
Definition uniform (n : nat) (rho : list R) : Prop := forall i j, (i < n)%nat -> (j < n)%nat -> nth i rho 0 = nth j rho 0.

(** The electrons of the particles, stored or made of the ions: one from H+ and He+, two from He++. *)
Definition electrons_of (split : bool) (s : gsnap) (ne : list R) : Prop :=
  if split then exists hp hep hepp, holds s "NHP " 1 hp /\ holds s "NHEP" 1 hep /\ holds s "NHEQ" 1 hepp /\
    forall i, (i < n_gas s)%nat -> nth i ne 0 = nth i hp 0 + nth i hep 0 + 2 * nth i hepp 0
  else holds s "NE  " 1 ne.

(** The particles of a complete snapshot. *)
Definition complete (split : bool) (s : gsnap) (pos vel rho u ne fr len : list R) : Prop :=
  (0 < n_gas s)%nat /\ g_cooling s = true /\ holds s "POS " 3 pos /\ holds s "VEL " 3 vel /\ holds s "RHO " 1 rho /\
  holds s "U   " 1 u /\ electrons_of split s ne /\ holds s "NH  " 1 fr /\ holds s "HSML" 1 len.

Definition particles_of (s : gsnap) (pos vel rho u ne fr len : list R) (l : list used) : Prop :=
  Forall2 (fun i p => particle (g_time s) (g_hubble s) pos vel i (nth i rho 0) (nth i fr 0) (nth i u 0) (nth i ne 0) (nth i len 0 / 2) p)
    (seq 0 (n_gas s)) l.

(** The same gas in an HDF5 file: masses in the header are zero and there are no volumes. *)
Definition same_gas (n : nat) (hd : header) (g : group) (s : gsnap) : Prop :=
  h_npart hd = n /\ h_mass hd = 0 /\ h_cooling hd = true /\ n_gas s = n /\ g_cooling s = true /\ g "Volume"%string = None /\
  forall hdf gad dims, In (hdf, gad, dims) [("Coordinates", "POS ", [n; 3%nat]); ("Velocities", "VEL ", [n; 3%nat]); ("Density", "RHO ", [n]);
    ("InternalEnergy", "U   ", [n]); ("ElectronAbundance", "NE  ", [n]); ("NeutralHydrogenAbundance", "NH  ", [n]);
    ("SmoothingLength", "HSML", [n])]%string -> exists v, block g hdf dims v /\ g_block s gad = Some v.
