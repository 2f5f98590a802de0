(** Specification of reading and converting particles and of the output file of the C extractor. *)
From Coq Require Import Ascii String.
From Coq Require Import Reals List Bool ZArith Arith.
From Verif Require Import CreadModel.
Import ListNotations.
Local Open Scope R_scope.

(** Blocks hold as many numbers as their dimensions say. *)
Definition sound (g : group) : Prop :=
  forall name d, g name = Some d -> length (d_values d) = fold_right Nat.mul 1%nat (d_dims d).

(** A block of 32 bit floats of these dimensions and values. *)
Definition block (g : group) (name : string) (dims : list nat) (v : list R) : Prop :=
  exists d, g name = Some d /\ d_dims d = dims /\ d_float d = true /\ d_size d = 4%nat /\ d_readable d = true /\ d_values d = v.

Definition has_block (g : group) (name : string) (dims : list nat) : Prop := exists v, block g name dims v.

(** The blocks other than Coordinates which are needed for [n] particles. *)
Definition blocks_present (mass : R) (g : group) (n : nat) : Prop :=
  has_block g "Velocities" [n; 3%nat] /\
  (mass <> 0 \/ has_block g "Density" [n] \/ has_block g "Masses" [n]) /\
  has_block g "InternalEnergy" [n] /\ has_block g "ElectronAbundance" [n] /\ has_block g "NeutralHydrogenAbundance" [n] /\
  match g "Volume"%string with Some _ => has_block g "Volume" [n] | None => has_block g "SmoothingLength" [n] end.

(** No number of the particle is indeterminate. *)
Definition determinate (g : used) : Prop :=
  (forall x, In x (g_pos g) -> x <> None) /\ (forall x, In x (g_vel g) -> x <> None) /\
  g_col g <> None /\ g_temp g <> None /\ g_h g <> None.

(** The lengths of the particles: half the smoothing length, and for cells with a volume a power of it close to the cubic root. *)
Definition lengths_of (g : group) (n : nat) (hv : list R) : Prop :=
  (g "Volume"%string = None /\ exists s, block g "SmoothingLength" [n] s /\ hv = map (fun x => x / 2) s) \/
  (exists v, block g "Volume" [n] v /\ Forall (fun x => 0 < x) v /\ hv = map (fun x => Rpower x 0.33333333) v).

(** The densities of the particles: stored, or if not mass over the cube of the length; but all are the number in the header's MassTable
    if this is not zero. *)
Definition densities_of (mass : R) (g : group) (n : nat) (hv dens : list R) : Prop :=
  length dens = n /\
  ((mass = 0 /\ block g "Density" [n] dens) \/
   (mass = 0 /\ ~ has_block g "Density" [n] /\
    exists m, block g "Masses" [n] m /\ forall i, (i < n)%nat -> nth i dens 0 = nth i m 0 / nth i hv 0 ^ 3) \/
   (mass <> 0 /\ forall i, (i < n)%nat -> nth i dens 0 = mass)).

(** Hydrogen atoms per cm^3 at expansion factor a in gas stored with density d (10^10 Msun/h over cubic comoving kpc/h), of which
    a fraction 0.76 of the mass is hydrogen. *)
Definition hydrogen (a h d n : R) : Prop :=
  n * (1.00794 * 1.67262178e-24) * (3.085678e21 / h * a) ^ 3 = 0.76 * (d * (1.98892e43 / h)).

(** Column density of neutral hydrogen per comoving kpc/h: all hydrogen is neutral above the threshold, a fraction f of it below. *)
Definition neutral_column (a h d f c : R) : Prop :=
  exists n, hydrogen a h d n /\
    ((n <= 0.12948869200298072 /\ c = n * f * (3.085678e21 / h * a)) \/
     (0.12948869200298072 < n /\ c = n * (3.085678e21 / h * a))).

(** Temperature of gas of hydrogen and helium (0.24 of the mass) with ne electrons per hydrogen atom and energy u (km/s)^2 per mass, each
    particle having 3/2 k T, for Boltzmann's constant k. *)
Definition gas_temperature (k u ne t : R) : Prop :=
  u * 1e10 = (0.76 + 0.24 / 4 + ne * 0.76) / 1.67262178e-24 * (3 / 2 * k * t).

(** What is known about the density of particle i. *)
Definition particle (a h : R) (pos vel : list R) (i : nat) (d f u ne len : R) (g : used) : Prop :=
  g_pos g = [Some (nth (3 * i) pos 0); Some (nth (3 * i + 1) pos 0); Some (nth (3 * i + 2) pos 0)] /\
  g_vel g = [Some (nth (3 * i) vel 0); Some (nth (3 * i + 1) vel 0); Some (nth (3 * i + 2) vel 0)] /\
  (exists c, g_col g = Some c /\ neutral_column a h d f c) /\
  (exists t, g_temp g = Some t /\ gas_temperature 1.3806504e-16 u ne t) /\
  g_h g = Some len.

(** Bytes: encodings of fixed length that can be inverted. *)
Definition encoding {A byte} (size : nat) (put : A -> list byte) (get : list byte -> A) : Prop :=
  forall x, length (put x) = size /\ get (put x) = x.

(** The last value given by an option, if it was given. *)
Inductive last_given {A} (pick : opt -> option A) : list opt -> option A -> Prop :=
| given_none : forall os, Forall (fun o => pick o = None) os -> last_given pick os None
| given_last : forall os o os' x, pick o = Some x -> Forall (fun o => pick o = None) os' -> last_given pick (os ++ o :: os') (Some x).

Definition pick_out (o : opt) : option string := match o with OptO s => Some s | _ => None end.
Definition pick_in (o : opt) : option string := match o with OptI s => Some s | _ => None end.
Definition pick_n (o : opt) : option Z := match o with OptN n => Some n | _ => None end.
Definition pick_table (o : opt) : option string := match o with OptT s => Some s | _ => None end.

(** What the options mean. *)
Definition means (os : list opt) (c : settings) : Prop :=
  ~ In OptOther os /\
  (exists o, last_given pick_out os o /\ c_out c = match o with Some s => (s ++ "_spectra.dat")%string | None => ""%string end) /\
  (exists o, last_given pick_in os o /\ c_in c = match o with Some s => s | None => ""%string end) /\
  (exists o, last_given pick_n os o /\ c_numlos c = match o with Some n => n | None => 0%Z end) /\
  last_given pick_table os (c_table c).
