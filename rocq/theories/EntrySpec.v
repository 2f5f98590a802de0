(** Specification vocabulary for C89 and C90. *)
From Coq Require Import List Bool ZArith Arith Lia.
From Verif Require Import EntryModel.
From Verif Require ParticleModel.
Import ListNotations.
Local Open Scope Z_scope.

(** ** Memory *)

(** Number of elements of an array. *)
Definition elements (a : ndarray) : Z := fold_right Z.mul 1 (a_shape a).

(** The bytes of an object that may be addressed as one block: none of an array that is not contiguous. *)
Definition bytes (args : list ndarray) (out : Z) (o : obj) : option Z :=
  match o with
  | Arg k => match nth_error args k with
             | Some a => if a_contig a then Some (elements a * itemsize (a_type a)) else None
             | None => None
             end
  | Copy k => match nth_error args k with
              | Some a => Some (elements a * itemsize (a_type a))
              | None => None
              end
  | Output => Some out
  | Interpolator => None
  end.

Definition in_bounds (args : list ndarray) (out : Z) (e : event) : Prop :=
  match e with
  | Read o w i | Write o w i => 0 <= i /\ exists b, bytes args out o = Some b /\ (i + 1) * w <= b
  | Overflow => False
  | _ => True
  end.

(** ** References *)

Definition obj_eqb (a b : obj) : bool :=
  match a, b with
  | Arg j, Arg k | Copy j, Copy k => Nat.eqb j k
  | Output, Output | Interpolator, Interpolator => true
  | _, _ => false
  end.

(** References to [o] gained by the events. *)
Definition change (o : obj) (e : event) : Z :=
  match e with
  | Incref p | Create p => if obj_eqb o p then 1 else 0
  | Decref p => if obj_eqb o p then -1 else 0
  | _ => 0
  end.
Fixpoint gained (o : obj) (tr : list event) : Z :=
  match tr with [] => 0 | e :: tr' => change o e + gained o tr' end.

(** Nothing is kept but the array handed to the caller. *)
Definition balanced (tr : list event) (r : outcome) : Prop :=
  forall o, gained o tr = match o, r with Output, Returned => 1 | _, _ => 0 end.

(** The caller holds the arguments during the call; anything else must have been made. *)
Definition held (o : obj) (before : list event) : Prop :=
  match o with Arg _ => 0 <= gained o before | _ => 0 < gained o before end.

(** Every access is to an object that has not been released. *)
Definition alive (tr : list event) : Prop :=
  forall before e after, tr = before ++ e :: after ->
    match e with Read o _ _ | Write o _ _ | Decref o => held o before | _ => True end.

(** ** Arguments *)

Definition near_args (q : near_call) : list ndarray := [n_pos q; n_hh q; n_axis q; n_cofm q].

Definition near_shapes (q : near_call) : Prop :=
  exists n p r1 r2 r3, a_shape (n_cofm q) = n :: 3 :: r1 /\ a_shape (n_axis q) = n :: r2 /\ a_shape (n_pos q) = p :: r3.
Definition line_types (cofm axis : ndarray) : Prop := a_type cofm = Float64 /\ a_type axis = Int32.

(** Arrays as they should be: [m] particles, [n] lines. *)
Definition near_sound (q : near_call) (m n : nat) : Prop :=
  a_shape (n_pos q) = [Z.of_nat m; 3] /\ a_shape (n_hh q) = [Z.of_nat m] /\ a_shape (n_axis q) = [Z.of_nat n] /\
  a_shape (n_cofm q) = [Z.of_nat n; 3] /\ a_type (n_pos q) = Float32 /\ a_type (n_hh q) = Float32 /\
  line_types (n_cofm q) (n_axis q) /\ forall i l, In l (n_visit q i) -> (l < n)%nat.

Definition interp_args (q : interp_call) : list ndarray := [q_pos q; q_vel q; q_dens q; q_temp q; q_h q; q_axis q; q_cofm q].

Definition interp_types (q : interp_call) : Prop :=
  a_type (q_pos q) = Float32 /\ a_type (q_vel q) = Float32 /\ a_type (q_dens q) = Float32 /\ a_type (q_temp q) = Float32 /\
  a_type (q_h q) = Float32 /\ line_types (q_cofm q) (q_axis q).

Definition first_dim (a : ndarray) (n : Z) : Prop := exists r, a_shape a = n :: r.

Definition interp_lengths (q : interp_call) : Prop :=
  exists n p r, a_shape (q_cofm q) = n :: 3 :: r /\ first_dim (q_axis q) n /\
    first_dim (q_pos q) p /\ first_dim (q_dens q) p /\ first_dim (q_h q) p.

(** Every dimension that is asked for exists. *)
Definition complete_dims (q : interp_call) : Prop :=
  (2 <= length (a_shape (q_cofm q)))%nat /\ a_shape (q_axis q) <> [] /\ a_shape (q_pos q) <> [] /\ a_shape (q_dens q) <> [] /\ a_shape (q_h q) <> [].

(** What the numbers lead to: lines and particles that exist, and bins of the line. *)
Definition interp_indices (q : interp_call) (m n : nat) : Prop :=
  (forall i l, In l (q_visit q i) -> (l < n)%nat) /\ (forall l p, In p (q_near q l) -> (p < m)%nat) /\
  (forall l p j, In j (q_bins q l p) -> 0 <= j < q_nbins q) /\
  (forall l, (l < n)%nat -> q_values q l = 1 \/ q_values q l = 2 \/ q_values q l = 3).

Definition interp_sound (q : interp_call) (m n : nat) : Prop :=
  a_shape (q_pos q) = [Z.of_nat m; 3] /\ a_shape (q_dens q) = [Z.of_nat m] /\ a_shape (q_h q) = [Z.of_nat m] /\
  (q_tau q = true -> a_shape (q_vel q) = [Z.of_nat m; 3] /\ a_shape (q_temp q) = [Z.of_nat m]) /\
  a_shape (q_axis q) = [Z.of_nat n] /\ a_shape (q_cofm q) = [Z.of_nat n; 3] /\
  interp_types q /\ 0 < q_nbins q /\ Z.of_nat m <= 715827882 /\ interp_indices q m n.

Definition table_args (q : table_call) : list ndarray := [t_a q; t_b q; t_x q; t_y q; t_grid q].

(** Can [n] numbers of type double be read from an array as it is? *)
Definition holds_doubles (a : ndarray) (n : Z) : Prop :=
  a_contig a = true /\ n * 8 <= elements a * itemsize (a_type a).

(** The call spectra.py:673 makes with the arrays of _read_particle_data (32 bit floats); for column densities the velocities are
    an array with one element. *)
Definition package_call (r : ParticleModel.request) (a : ParticleModel.arrays) (contig : nat -> bool) (nbins : Z) (mesh : bool) (n : nat)
    (values : nat -> Z) (visit near : nat -> list nat) (bins : nat -> nat -> list Z) : interp_call :=
  let len {A : Type} (l : list A) := Z.of_nat (length l) in
  mkInterp (ParticleModel.r_tau r) nbins mesh
    (mkArray Float32 [len (ParticleModel.a_pos a); 3] (contig 0%nat))
    (if ParticleModel.r_tau r then mkArray Float32 [len (ParticleModel.a_vel a); 3] (contig 1%nat) else mkArray Float32 [1] (contig 1%nat))
    (mkArray Float32 [len (ParticleModel.a_den a)] (contig 2%nat))
    (mkArray Float32 [len (ParticleModel.a_temp a)] (contig 3%nat))
    (mkArray Float32 [len (ParticleModel.a_hh a)] (contig 4%nat))
    (mkArray Int32 [Z.of_nat n] (contig 5%nat)) (mkArray Float64 [Z.of_nat n; 3] (contig 6%nat)) values visit near bins.
