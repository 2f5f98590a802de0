(** Model of the quantities a snapshot object derives from the stored blocks (fake_spectra/abstractsnapshot.py):
    units, temperature, peculiar velocity, smoothing length, kernel, number of particles and baryon density.
    Arrays are lists; arrays in an arithmetic operation must have equal lengths (numpy's broadcasting of
    arrays of length one is not modelled). *)
From Coq Require Import Ascii String ZArith List Bool Reals Lra.
From Verif Require Import OpenModel.
Import ListNotations.
Local Open Scope R_scope.

(** A value or the exception raised. *)
Inductive res (A : Type) :=
| Val (a : A)
| KeyErr        (* no such block or attribute *)
| ShapeErr      (* arrays of different lengths *)
| AssertErr     (* failed assertion *)
| IndexE.       (* no such segment *)
Arguments Val {A} a. Arguments KeyErr {A}. Arguments ShapeErr {A}. Arguments AssertErr {A}. Arguments IndexE {A}.

(** An exception ends the function (helper). *)
Definition bind {A B} (x : res A) (f : A -> res B) : res B :=
  match x with
  | Val a => f a
  | KeyErr => KeyErr | ShapeErr => ShapeErr | AssertErr => AssertErr | IndexE => IndexE
  end.

(** Element-wise operation of two arrays. *)
Fixpoint zip {A B C} (f : A -> B -> C) (a : list A) (b : list B) : res (list C) :=
  match a, b with
  | [], [] => Val []
  | x :: a', y :: b' => bind (zip f a' b') (fun r => Val (f x y :: r))
  | _, _ => ShapeErr
  end.

(** Access to a dictionary. *)
Definition look {A} (d : string -> option A) (x : string) : res A :=
  match d x with Some a => Val a | None => KeyErr end.

(** ** Units *)
Record units := mkUnits { u_length : R; u_mass : R; u_vel : R }.

(** unitsystem.py:7 *)
Definition default_units : units := mkUnits 3.085678e21 1.98892e43 1e5.

(** abstractsnapshot.py:102-112: all defaults if one attribute is missing. *)
Definition get_units (header : string -> option R) : units :=
  match header "UnitLength_in_cm"%string, header "UnitMass_in_g"%string, header "UnitVelocity_in_cm_per_s"%string with
  | Some l, Some m, Some v => mkUnits l m v
  | _, _, _ => default_units
  end.

(** unitsystem.py:17 *)
Definition energy_unit (u : units) : R := u_vel u ^ 2.

(** abstractsnapshot.py:151-153 for one particle; unitsystem.py:21, 23, 29 *)
Definition temp_one (hy_mass nelec ienergy : R) : R :=
  let muienergy := 4 / (hy_mass * (3 + 4 * nelec) + 1) * ienergy in
  (5 / 3 - 1) * 1.67262178e-24 / 1.38066e-16 * muienergy.

(** abstractsnapshot.py:121-154; [get x] is get_data(part_type, x, segment). *)
Definition get_temp (header : string -> option R) (get : string -> res (list R)) (hy_mass : R)
    (given : option units) : res (list R) :=
  let u := match given with Some u => u | None => get_units header end in
  bind (get "InternalEnergy"%string) (fun e =>
  let ienergy := map (fun x => x * energy_unit u) e in
  bind (get "ElectronAbundance"%string) (fun ne =>
  zip (fun n x => temp_one hy_mass n x) ne ienergy)).

(** ** Velocities *)

(** abstractsnapshot.py:114-119, HDF5 *)
Definition hdf_velocity (header : string -> option R) (get : string -> res (list R)) : res (list R) :=
  bind (get "Velocities"%string) (fun v =>
  bind (look header "Time") (fun a => Val (map (fun x => x * sqrt a) v))).

(** abstractsnapshot.py:399-406, BigFile *)
Definition big_velocity (header : string -> option R) (get : string -> res (list R)) : res (list R) :=
  bind (get "Velocity"%string) (fun v =>
  bind (look header "UsePeculiarVelocity") (fun p =>
  if Req_EM_T p 0 then bind (look header "Time") (fun a => Val (map (fun x => x / a) v))
  else Val v)).

(** ** Files of an HDF5 snapshot *)

(** One file: the gas group if there is one, the particle mass of dark matter in the header (MassTable[1]),
    the number of dark matter particles in this file (NumPart_ThisFile[1]) and Omega0. *)
Record hfile := mkFile { gas : option (string -> option (list R)); dm_mass : R; dm_count : R; omega0 : R }.

(** _f_handle["PartType0"][x] *)
Definition gas_block (f : hfile) (x : string) : res (list R) :=
  match gas f with Some g => look g (hdf_name x) | None => KeyErr end.

(** abstractsnapshot.py:214-219 *)
Definition gas_all (fs : list hfile) (x : string) : res (list R) :=
  fold_right (fun f acc => bind (gas_block f x) (fun d => bind acc (fun ds => Val (d ++ ds)%list))) (Val []) fs.

(** abstractsnapshot.py:209-224 get_data(0, x, segment); files are assumed to open. *)
Definition hdf_data (fs : list hfile) (segment : Z) (x : string) : res (list R) :=
  if (segment <? 0)%Z then gas_all fs x
  else match nth_error fs (Z.to_nat segment) with Some f => gas_block f x | None => IndexE end.

(** numpy power(x, 1./3) for x >= 0; for negative x numpy gives nan. *)
Definition root3 (x : R) : R := if Rlt_dec 0 x then Rpower x (1 / 3) else 0.

(** abstractsnapshot.py:253-282; try ... except KeyError. *)
Definition hdf_smooth (get : string -> res (list R)) : res (list R) :=
  match get "Volume"%string with
  | Val v => Val (map root3 v)
  | KeyErr =>
      match get "SmoothingLength"%string with
      | Val h => Val (map (fun x => x / 2) h)
      | KeyErr =>
          bind (get "Density"%string) (fun d =>
          bind (get "Masses"%string) (fun m =>
          bind (zip (fun m d => m / d) m d) (fun v => Val (map root3 v))))
      | e => e
      end
  | e => e
  end.

(** abstractsnapshot.py:284-301: [f] is the file that is open. *)
Definition hdf_kernel (f : hfile) : res Z :=
  match gas f with
  | None => KeyErr
  | Some g =>
      match g "Volume"%string with
      | Some _ => Val 0%Z
      | None => match g "SmoothingLength"%string with Some _ => Val 1%Z | None => Val 0%Z end
      end
  end.

(** abstractsnapshot.py:230-234: from the file that is open. *)
Definition omega_baryon (f : hfile) : res R :=
  let mass_dm := dm_mass f * dm_count f in
  match gas f with
  | None => KeyErr
  | Some g => bind (look g "Masses") (fun m =>
      let mass_bar := fold_right Rplus 0 m in
      Val (mass_bar / (mass_bar + mass_dm) * omega0 f))
  end.

(** The file that is open after reading these segments one after the other: file 0 first
    (abstractsnapshot.py:163-164), a read of a segment that exists opens it (:220-223), a read of all files
    leaves it (:214-219). *)
Definition open_after (fs : list hfile) (reads : list Z) : option hfile :=
  nth_error fs (Z.to_nat (fold_left (fun h s => if (s <? 0)%Z then h else s) reads 0%Z)).

(** ** BigFile *)

(** abstractsnapshot.py:377-397; [attr] is DensityKernel of the header. *)
Definition big_kernel (attr : option Z) : res Z :=
  match attr with
  | Some 2%Z => Val 3%Z
  | _ =>
      let kernel := match attr with Some k => k | None => 1%Z end in
      if ((kernel =? 1) || (kernel =? 3))%Z then Val kernel else AssertErr
  end.

(** abstractsnapshot.py:93-100 *)
Definition big_smooth (get : string -> res (list R)) : res (list R) :=
  bind (get "SmoothingLength"%string) (fun h => Val (map (fun x => x / 2) h)).

(** ** Number of particles *)

(** abstractsnapshot.py:226-228 for one particle type *)
Definition npart_total (low high : Z) : Z := (low + 2 ^ 32 * high)%Z.
