(** Model of what cextract does with the contents of a snapshot: read_hdf_snapshot.c, the conversion of the particles in
    main.cpp and the output file, which cextract/statistic.c reads.  Floats are reals; NaN and infinities are not modelled. *)
From Coq Require Import Ascii String.
From Coq Require Import Reals List Bool ZArith Arith Lia Lra.
From Verif Require CstatModel.
Import ListNotations.
Local Open Scope R_scope.

(** ** Datasets *)

(** A dataset: its dimensions, the class and size of its type, whether H5LTread_dataset_float succeeds, and its numbers in order. *)
Record dataset := mkDataset { d_dims : list nat; d_float : bool; d_size : nat; d_readable : bool; d_values : list R }.

(** An HDF5 group: its datasets by name. *)
Definition group := string -> option dataset.

(** An array of malloc: [None] is a value nobody has written. *)
Definition array := list (option R).

(** malloc of [n] numbers: none of them written. *)
Definition fresh (n : nat) : array := repeat None n.

(** Reading values into the start of an array. *)
Definition fill (a : array) (v : list R) : array := map Some v ++ skipn (length v) a.

(** read_hdf_snapshot.c:16-31 get_single_dataset: the length read, and the array afterwards.  A failing
    H5LTread_dataset_float is assumed not to write. *)
Definition get_single (g : group) (name : string) (a : array) (data_length : nat) : nat * array :=
  match g name with
  | None => (0%nat, a)
  | Some d =>
      match d_dims d with
      | [vlength] =>
          if negb (Nat.eqb (d_size d) 4) || negb (d_float d) || Nat.ltb data_length vlength || negb (d_readable d) then (0%nat, a)
          else (vlength, fill a (d_values d))
      | _ => (0%nat, a)
      end
  end.

(** read_hdf_snapshot.c:34-49 get_triple_dataset *)
Definition get_triple (g : group) (name : string) (a : array) (data_length : nat) : nat * array :=
  match g name with
  | None => (0%nat, a)
  | Some d =>
      match d_dims d with
      | [vlength; columns] =>
          if negb (Nat.eqb (d_size d) 4) || negb (d_float d) || negb (Nat.eqb columns 3) || Nat.ltb data_length vlength || negb (d_readable d)
          then (0%nat, a)
          else (vlength, fill a (d_values d))
      | _ => (0%nat, a)
      end
  end.

(** ** One file *)

(** global_vars.h:10-19 particle_data; [pos] and [vel] have three entries for a particle.  [p_dens] is Mass. *)
Record parts := mkParts { p_pos : array; p_vel : array; p_dens : array; p_u : array; p_ne : array; p_temp : array; p_h : array;
  p_frac : array }.

(** init.c:57-67 alloc_parts; memory is assumed to suffice. *)
Definition alloc_parts (np : nat) : parts :=
  mkParts (fresh (3 * np)) (fresh (3 * np)) (fresh np) (fresh np) (fresh np) (fresh np) (fresh np) (fresh np).

(** NumPart_ThisFile[0], MassTable[0], Flag_Cooling != 0 *)
Record header := mkHeader { h_npart : nat; h_mass : R; h_cooling : bool }.

(** A file: [None] for a header that cannot be read (or lacks an attribute), [None] for a missing /PartType0. *)
Record snapfile := mkSnap { s_header : option header; s_gas : option group }.

(** An arithmetic operation on numbers that may be indeterminate; the result then is as well. *)
Definition olift1 (f : R -> R) (x : option R) : option R := option_map f x.
(** The same with two operands. *)
Definition olift2 (f : R -> R -> R) (x y : option R) : option R :=
  match x, y with Some a, Some b => Some (f a b) | _, _ => None end.

(** A C loop over the first [n] entries of an array. *)
Fixpoint map_first (n : nat) (f : option R -> option R) (a : array) : array :=
  match n, a with
  | S n', x :: a' => f x :: map_first n' f a'
  | _, _ => a
  end.

(** A C loop over the first [n] entries of two arrays. *)
Fixpoint zip_first (n : nat) (f : option R -> option R -> option R) (a b : array) : array :=
  match n, a, b with
  | S n', x :: a', y :: b' => f x y :: zip_first n' f a' b'
  | _, _, _ => a
  end.

(** pow(x, y) for x >= 0; pow of a negative number is NaN, which is not modelled. *)
Definition cpow (x y : R) : R := if Rlt_dec 0 x then Rpower x y else 0.

(** read_hdf_snapshot.c:187-211, the end of the particle reading: h, and the density if masses were read.  [n] is [length].  A zero or
    negative volume or length does not occur in the division (infinities are not modelled). *)
Definition read_h (g : group) (n np : nat) (using_mass : bool) (p : parts) : parts :=
  let convert (q : parts) : parts :=
    if using_mass
    then mkParts (p_pos q) (p_vel q) (zip_first np (olift2 (fun m h => m / h ^ 3)) (p_dens q) (p_h q)) (p_u q) (p_ne q) (p_temp q) (p_h q)
           (p_frac q)
    else q in
  match g "Volume"%string with
  | Some _ =>
      let '(k, h) := get_single g "Volume" (p_h p) n in
      if negb (Nat.eqb n k) then mkParts (p_pos p) (p_vel p) (p_dens p) (p_u p) (p_ne p) (p_temp p) h (p_frac p)
      else convert (mkParts (p_pos p) (p_vel p) (p_dens p) (p_u p) (p_ne p) (p_temp p) (map_first n (olift1 (fun v => cpow v 0.33333333)) h)
                      (p_frac p))
  | None =>
      let '(k, h) := get_single g "SmoothingLength" (p_h p) n in
      if negb (Nat.eqb n k) then mkParts (p_pos p) (p_vel p) (p_dens p) (p_u p) (p_ne p) (p_temp p) h (p_frac p)
      else convert (mkParts (p_pos p) (p_vel p) (p_dens p) (p_u p) (p_ne p) (p_temp p) (map_first n (olift1 (fun v => v / 2)) h)
                      (p_frac p))
  end.

(** read_hdf_snapshot.c:172-186 *)
Definition read_energy (g : group) (n np : nat) (cooling using_mass : bool) (p : parts) : parts :=
  let '(k, u) := get_single g "InternalEnergy" (p_u p) n in
  let p := mkParts (p_pos p) (p_vel p) (p_dens p) u (p_ne p) (p_temp p) (p_h p) (p_frac p) in
  if negb (Nat.eqb n k) then p
  else if cooling then
    let '(k, ne) := get_single g "ElectronAbundance" (p_ne p) n in
    let p := mkParts (p_pos p) (p_vel p) (p_dens p) (p_u p) ne (p_temp p) (p_h p) (p_frac p) in
    if negb (Nat.eqb n k) then p
    else
      let '(k, fr) := get_single g "NeutralHydrogenAbundance" (p_frac p) n in
      let p := mkParts (p_pos p) (p_vel p) (p_dens p) (p_u p) (p_ne p) (p_temp p) (p_h p) fr in
      if negb (Nat.eqb n k) then p else read_h g n np using_mass p
  else read_h g n np using_mass p.

(** read_hdf_snapshot.c:150-212; the result is [length] and the particles. *)
Definition read_gas (g : group) (hd : header) : nat * parts :=
  let np := h_npart hd in
  let p := alloc_parts np in
  let '(n, pos) := get_triple g "Coordinates" (p_pos p) np in
  let p := mkParts pos (p_vel p) (p_dens p) (p_u p) (p_ne p) (p_temp p) (p_h p) (p_frac p) in
  if Nat.eqb n 0 then (n, p) else
  let '(k, vel) := get_triple g "Velocities" (p_vel p) n in
  let p := mkParts (p_pos p) vel (p_dens p) (p_u p) (p_ne p) (p_temp p) (p_h p) (p_frac p) in
  if negb (Nat.eqb n k) then (n, p) else
  if Req_EM_T (h_mass hd) 0 then
    let '(k, d) := get_single g "Density" (p_dens p) n in
    if Nat.eqb n k then
      (n, read_energy g n np (h_cooling hd) false (mkParts (p_pos p) (p_vel p) d (p_u p) (p_ne p) (p_temp p) (p_h p) (p_frac p)))
    else
      let '(k, d) := get_single g "Masses" d n in
      let p := mkParts (p_pos p) (p_vel p) d (p_u p) (p_ne p) (p_temp p) (p_h p) (p_frac p) in
      if negb (Nat.eqb n k) then (n, p) else (n, read_energy g n np (h_cooling hd) true p)
  else
    (n, read_energy g n np (h_cooling hd) false
          (mkParts (p_pos p) (p_vel p) (map_first n (fun _ => Some (h_mass hd)) (p_dens p)) (p_u p) (p_ne p) (p_temp p) (p_h p) (p_frac p))).

(** read_hdf_snapshot.c:109-226 load_hdf5_snapshot for fileno >= 1: the value returned, and the particles if they were allocated. *)
Definition load_snapshot (s : snapfile) : Z * option parts :=
  match s_header s with
  | None => ((-1)%Z, None)
  | Some hd =>
      match s_gas s with
      | None => ((-1)%Z, Some (alloc_parts (h_npart hd)))
      | Some g => let '(n, p) := read_gas g hd in (Z.of_nat n, Some p)
      end
  end.

(** ** Conversion *)

(** absorption.cpp:24, 28, 30, 33 and absorption.h:4 *)
Definition tscale : R := (5 / 3 - 1) * 1.67262178e-24 * 1e10 / 1.3806504e-16.

(** absorption.cpp:292-304 compute_temp *)
Definition compute_temp (uu ne xh : R) : R :=
  let mu := 1 / (xh * (0.75 + ne) + 0.25) in
  uu * mu * tscale.

(** main.cpp:41, 43, 45 *)
Definition physdensthresh : R := 0.12948869200298072.
(** main.cpp:41, 43, 45, with the definition above. *)
Definition gadget_mass : R := 1.98892e43.
(** main.cpp:41, 43, 45, with the definition above. *)
Definition gadget_length : R := 3.085678e21.

(** main.cpp:224-226 *)
Definition rscale (atime h100 : R) : R := gadget_length * atime / h100.
(** main.cpp:224-226, with the definition above. *)
Definition dscale (atime h100 : R) : R :=
  gadget_mass / gadget_length ^ 3 * h100 * h100 / (1.00794 * 1.67262178e-24) / atime ^ 3.

(** main.cpp:228-232 for one particle; the fraction is not used above the threshold. *)
Definition convert_density (atime h100 : R) (dens frac : option R) : option R :=
  match dens with
  | None => None
  | Some d =>
      let m := d * (dscale atime h100 * 0.76) in
      if Rle_dec m physdensthresh
      then match frac with Some f => Some (m * f * rscale atime h100) | None => None end
      else Some (m * rscale atime h100)
  end.

(** A particle as it is given to compute_tau and compute_colden (main.cpp:236-237): [None] where the number is indeterminate. *)
Record used := mkUsed { g_pos : array; g_vel : array; g_col : option R; g_temp : option R; g_h : option R }.

(** a[i]; beyond the end it is indeterminate. *)
Definition at_ (a : array) (i : nat) : option R := match nth_error a i with Some x => x | None => None end.

(** a[3*i], a[3*i+1] and a[3*i+2]. *)
Definition triple (a : array) (i : nat) : array := [at_ a (3 * i); at_ a (3 * i + 1); at_ a (3 * i + 2)].

(** main.cpp:227-237: the particles of a file after load_hdf5_snapshot returned [npart]. *)
Definition converted (atime h100 : R) (npart : Z) (p : parts) : list used :=
  map (fun i => mkUsed (triple (p_pos p) i) (triple (p_vel p) i)
                 (convert_density atime h100 (at_ (p_dens p) i) (at_ (p_frac p) i))
                 (olift2 (fun u ne => compute_temp u ne 0.76) (at_ (p_u p) i) (at_ (p_ne p) i))
                 (at_ (p_h p) i))
      (seq 0 (Z.to_nat npart)).

(** main.cpp:210, 222-237 for one file: the particles interpolated, [None] if the particles were not allocated (then nothing is
    read, but they are freed: see C47). *)
Definition extract_file (atime h100 : R) (s : snapfile) : option (list used) :=
  match load_snapshot s with
  | (npart, Some p) => Some (converted atime h100 npart p)
  | (_, None) => None
  end.

(** ** The header *)

(** The attributes of load_hdf5_header; [a_total] and [a_high] are NumPart_Total[0] and NumPart_Total_HighWord[0], unsigned 32 bit
    numbers in the file.  Attributes but the last two cause an error if they are missing. *)
Record attributes := mkAttributes { a_time : option R; a_redshift : option R; a_box : option R; a_hubble : option R; a_omega0 : option R;
  a_omegal : option R; a_cooling : option bool; a_total : Z; a_high : option Z }.

(** HDF5 converts an unsigned number that is too large to the largest int. *)
Definition native_int (x : Z) : Z := Z.min x 2147483647.

(** What main.cpp:165 gets: time, redshift, Hz, box, h *)
Record hdf_header := mkHdf { k_time : R; k_redshift : R; k_hz : R; k_box : R; k_hubble : R }.

(** read_hdf_snapshot.c:83 *)
Definition hz (atime h100 omega0 omegal : R) : R :=
  100 * h100 * sqrt (1 + omega0 * (1 / atime - 1) + omegal * (atime ^ 2 - 1)) / atime.

(** read_hdf_snapshot.c:52-105 load_hdf5_header; [None] is the return value -1.  If NumPart_Total_HighWord is missing, [npart] still has the low words. *)
Definition load_header (a : attributes) : option hdf_header :=
  match a_time a, a_redshift a, a_box a, a_hubble a, a_omega0 a, a_omegal a, a_cooling a with
  | Some t, Some z, Some b, Some h, Some o, Some l, Some _ =>
      let low := native_int (a_total a) in
      let high := match a_high a with Some x => native_int x | None => low end in
      if (low + 4294967296 * high <=? 0)%Z then None
      else Some (mkHdf t z (hz t h o l) b h)
  | _, _, _, _, _, _, _ => None
  end.

(** main.cpp:186 *)
Definition velfac (atime h100 hz : R) : R := atime / h100 * hz / 1e3.

(** The same of the python package: spectra.py:210-217, for units of length [l]; rounding of rscale to float is not modelled. *)
Definition py_hz (atime hubble omegam omegal : R) : R := 100 * hubble * sqrt (omegam / atime ^ 3 + omegal).
(** spectra.py:210-217, with the definition above. *)
Definition py_rscale (l atime hubble : R) : R := l * atime / hubble.
(** spectra.py:210-217, with the definition above. *)
Definition py_velfac (l atime hubble hz : R) : R := py_rscale l atime hubble * hz / 3.085678e24.

(** ** The output file *)

Section Bytes.
(** The bytes of a double and of an int. *)
Context (byte : Type) (zero : byte) (put_double : R -> list byte) (put_int : Z -> list byte).

(** main.cpp:247-257 the bytes written; NBINS is 1024 (main.cpp:50), pad is zero (main.cpp:106). *)
Definition write_spectra (redshift box100 : R) (numlos : Z) (tau colden : list R) : list byte :=
  (put_double redshift ++ put_double box100 ++ put_int 1024 ++ put_int numlos ++ concat (repeat (put_int 0) (32 - 6))
    ++ concat (map put_double tau) ++ concat (map put_double colden))%list.

Context (get_double : list byte -> R) (get_int : list byte -> Z).

(** fread of [n] items of [size] bytes: the items, only complete ones, and the rest of the file. *)
Fixpoint items (size n : nat) (f : list byte) : list (list byte) :=
  match n with
  | O => []
  | S n' => if Nat.ltb (length f) size then [] else firstn size f :: items size n' (skipn size f)
  end.

(** statistic.c:115-124: redshift, box, number of bins and sightlines, and the rest of the file; [None] if an fread fails, as
    its result is not checked and the variables are then indeterminate or 0. *)
Definition read_stat_header (f : list byte) : option (R * R * Z * Z * list byte) :=
  match items 8 2 f, items 4 28 (skipn 16 f) with
  | [z; b], nb :: nl :: pad =>
      if Nat.eqb (length pad) 26 then Some (get_double z, get_double b, get_int nb, get_int nl, skipn 128 f) else None
  | _, _ => None
  end.

(** The file as statistic.c sees it (see CstatModel). *)
Definition stat_file (f : list byte) : option CstatModel.spectra_file :=
  match read_stat_header f with
  | Some (z, _, nb, nl, rest) =>
      Some (CstatModel.mkFile z (Z.to_nat nb) (Z.to_nat nl) (map get_double (items 8 (length rest) rest)))
  | None => None
  end.
End Bytes.

(** ** The command line *)

Local Open Scope Z_scope.

(** The options of main.cpp:113-135 as getopt hands them over: -o, -i, -n (the number atoi makes of it), -t, or any other. *)
Inductive opt := OptO (name : string) | OptI (name : string) | OptN (n : Z) | OptT (name : string) | OptOther.

(** The variables main.cpp:113-135 sets: output, input, number of sightlines, table. *)
Record settings := mkSettings { c_out : string; c_in : string; c_numlos : Z; c_table : option string }.

(** main.cpp:113-135; [None] is exit(1). *)
Fixpoint parse (os : list opt) (c : settings) : option settings :=
  match os with
  | [] => Some c
  | OptO o :: os' => parse os' (mkSettings (o ++ "_spectra.dat") (c_in c) (c_numlos c) (c_table c))
  | OptI i :: os' => parse os' (mkSettings (c_out c) i (c_numlos c) (c_table c))
  | OptN n :: os' => parse os' (mkSettings (c_out c) (c_in c) n (c_table c))
  | OptT t :: os' => parse os' (mkSettings (c_out c) (c_in c) (c_numlos c) (Some t))
  | OptOther :: _ => None
  end.

(** How the beginning of main ends: exit with this status, an int that overflows, or going on. *)
Inductive start := Exit (status : Z) | Overflow | Go (c : settings).

(** main.cpp:136-157: the products 3*NumLos and NumLos*NBINS are computed as int; memory is assumed to suffice. *)
Definition begin (os : list opt) : start :=
  match parse os (mkSettings "" "" 0 None) with
  | None => Exit 1
  | Some c =>
      if c_numlos c <=? 0 then Exit 99
      else if String.eqb (c_in c) "" then Exit 99
      else if (2147483647 <? 3 * c_numlos c) || (2147483647 <? c_numlos c * 1024) then Overflow
      else Go c
  end.
