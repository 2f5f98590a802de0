(** C72: temperatures, velocities, smoothing lengths and kernels of a snapshot. *)
From Coquelicot Require Import Coquelicot.
From Coq Require Import Ascii String ZArith List Reals Lra Lia.
From Verif Require RatesModel AbsorptionModel AbsorptionSpec QuantProofs2.
From Verif Require Import OpenModel QuantModel QuantSpec QuantProofs.
Import ListNotations.
Local Open Scope R_scope.

(** The temperature is that of an ideal monatomic gas of hydrogen, helium and electrons with the stored
    energy per mass, in the unit of velocity in force; it exists if both blocks have the same length. *)
Theorem C72_temperature : forall header get X given e ne v T,
  0 <= X -> get "InternalEnergy"%string = Val e -> get "ElectronAbundance"%string = Val ne -> Forall (fun x => 0 <= x) ne ->
  unit_used header given v ->
  (length e = length ne -> exists t, get_temp header get X given = Val t) /\
  (get_temp header get X given = Val T -> Forall3 (fun e ne T => thermal X ne (e * v ^ 2) T) e ne T).
Proof. exact C72_temperature_aux. Qed.
Print Assumptions C72_temperature.

(** There is one such temperature. *)
Theorem C72_temperature_unique : forall X ne e T T', 0 <= X -> 0 <= ne -> thermal X ne e T -> thermal X ne e T' -> T = T'.
Proof. exact thermal_unique. Qed.
Print Assumptions C72_temperature_unique.

Example C72_temperature_example :
  let get x := if String.eqb x "InternalEnergy" then Val [100; 200] else
               if String.eqb x "ElectronAbundance" then Val [1; 0] else KeyErr in
  (exists t, get_temp (fun _ => None) get 0.76 None = Val t /\ length t = 2%nat) /\ unit_used (fun _ => None) None 1e5.
Proof.
  split; [|right; right; auto]. eexists. split; reflexivity.
Qed.

(** The rate network assigns the same temperature to the same energy and electrons. *)
Theorem C72_network : forall X ne e T, RatesModel.get_temp ne e (1 - X) = Some T ->
  get_temp (fun _ => None) (fun x => if String.eqb x "InternalEnergy" then Val [e]
    else if String.eqb x "ElectronAbundance" then Val [ne] else KeyErr) X None = Val [T].
Proof. exact C72_network_aux. Qed.
Print Assumptions C72_network.

Example C72_network_example : exists T, RatesModel.get_temp 1 100 (1 - 0.76) = Some T.
Proof.
  unfold RatesModel.get_temp. cbv zeta. match goal with |- context [Rle_dec 0 ?t] => destruct (Rle_dec 0 t) as [H|N] end; [eexists; reflexivity|].
  exfalso. apply N. apply Rmult_le_pos; [lra|]. apply Rmult_le_pos; [|lra]. apply Rmult_le_pos; [|lra].
  apply Rlt_le, Rdiv_lt_0_compat; lra.
Qed.

(** If the header lacks another unit its velocity unit is not used, and the temperature is wrong. *)
Theorem C72_units_refuted : forall header get X ne e v T,
  header "UnitLength_in_cm"%string = None -> header "UnitVelocity_in_cm_per_s"%string = Some v -> 0 < v -> v <> 1e5 ->
  get "InternalEnergy"%string = Val [e] -> get "ElectronAbundance"%string = Val [ne] -> 0 < e -> 0 <= ne -> 0 <= X ->
  get_temp header get X None = Val [T] -> ~ thermal X ne (e * v ^ 2) T.
Proof. exact C72_units_refuted_aux. Qed.
Print Assumptions C72_units_refuted.

Example C72_units_example :
  exists T, get_temp (fun x => if String.eqb x "UnitVelocity_in_cm_per_s" then Some 1 else None)
    (fun x => if String.eqb x "InternalEnergy" then Val [5] else if String.eqb x "ElectronAbundance" then Val [1] else KeyErr)
    0.76 None = Val [T].
Proof. eexists. reflexivity. Qed.

(** The same velocities are found in the three conventions in which they are stored. *)
Theorem C72_velocity : forall header get a v, 0 < a -> header "Time"%string = Some a ->
  (get "Velocities"%string = Val (map (fun x => x / sqrt a) v) -> hdf_velocity header get = Val v) /\
  (header "UsePeculiarVelocity"%string = Some 0 -> get "Velocity"%string = Val (map (fun x => a * x) v) ->
   big_velocity header get = Val v) /\
  (forall p, p <> 0 -> header "UsePeculiarVelocity"%string = Some p -> get "Velocity"%string = Val v ->
   big_velocity header get = Val v).
Proof. exact C72_velocity_aux. Qed.
Print Assumptions C72_velocity.

(** Smoothing lengths and kernel go together, in every segment and after every history of reads: with the
    top hat the cube of the radius is the volume of the cell, with the spline the radius is half the stored
    length. *)
Theorem C72_smooth : forall fs, uniform fs -> fs <> [] -> exists k, (k = 0 \/ k = 1)%Z /\
  forall reads s, Forall (valid fs) reads -> valid fs s ->
  (exists f, open_after fs reads = Some f /\ hdf_kernel f = Val k) /\
  (k = 1%Z -> (forall v, ~ segment_block fs s "Volume" v) /\
     exists h r, segment_block fs s "SmoothingLength" h /\ hdf_smooth (hdf_data fs s) = Val r /\
       Forall2 (fun h r => r = h / 2) h r) /\
  (k = 0%Z -> forall r, hdf_smooth (hdf_data fs s) = Val r ->
     exists v, cell_volumes fs s v /\ Forall2 (fun v r => 0 <= v -> 0 <= r /\ r * r * r = v) v r) /\
  (forall v, segment_block fs s "Volume" v -> k = 0%Z /\ exists r, hdf_smooth (hdf_data fs s) = Val r).
Proof. exact C72_smooth_aux. Qed.
Print Assumptions C72_smooth.

Definition arepo (m d : list R) : hfile :=
  mkFile (Some (fun x => if String.eqb x "Masses" then Some m else if String.eqb x "Density" then Some d else None)) 2 5 0.3.
Definition gadget (h m : list R) : hfile :=
  mkFile (Some (fun x => if String.eqb x "SmoothingLength" then Some h else if String.eqb x "Masses" then Some m else None)) 2 5 0.3.
Example C72_smooth_example :
  uniform [arepo [8; 1] [1; 1]; arepo [27] [1]] /\
  (exists r, hdf_smooth (hdf_data [arepo [8; 1] [1; 1]; arepo [27] [1]] (-1)) = Val r /\ length r = 3%nat) /\
  uniform [gadget [4] [1]; gadget [6; 2] [1; 1]] /\
  hdf_smooth (hdf_data [gadget [4] [1]; gadget [6; 2] [1; 1]] 1) = Val [6 / 2; 2 / 2] /\
  hdf_kernel (gadget [4] [1]) = Val 1%Z /\ hdf_kernel (arepo [8] [1]) = Val 0%Z.
Proof.
  split.
  { intros f g [<-|[<-|[]]] [<-|[<-|[]]]; do 2 eexists; (split; [reflexivity|]); (split; [reflexivity|]); intros x; cbv beta;
      destruct (String.eqb x "Masses"), (String.eqb x "Density"); split; congruence. }
  split; [eexists; split; reflexivity|]. split.
  { intros f g [<-|[<-|[]]] [<-|[<-|[]]]; do 2 eexists; (split; [reflexivity|]); (split; [reflexivity|]); intros x; cbv beta;
      destruct (String.eqb x "SmoothingLength"), (String.eqb x "Masses"); split; congruence. }
  repeat split.
Qed.

(** With such a radius a cell deposits exactly its mass: integrated over the impact parameters of the
    sightlines, the column density it adds is the mass. *)
Theorem C72_cell_mass : forall m rho r vbox velfac n pos, 0 < rho -> 0 < r -> r * r * r = m / rho ->
  0 < vbox -> 0 < velfac -> (0 < n)%nat ->
  exists column : R -> R,
    (forall b, 0 <= b < r -> exists colden,
       AbsorptionModel.add_colden_particle AbsorptionModel.TopHat vbox velfac (Z.of_nat n) (b * b) rho pos r (repeat 0 n) = Some colden /\
       AbsorptionSpec.rsum colden = column b) /\
    is_RInt (fun b => 2 * PI * b * column b) 0 r m.
Proof. exact QuantProofs2.C72_cell_mass_aux. Qed.
Print Assumptions C72_cell_mass.

Example C72_cell_mass_example : 0 < 2 /\ 0 < 3 /\ 3 * 3 * 3 = 54 / 2.
Proof. lra. Qed.

(** The kernel is that of the file which happens to be open: if the files differ it depends on what was read. *)
Theorem C72_kernel_refuted : forall f g b h, gas f = None -> gas g = Some b -> b "Volume"%string = None ->
  b "SmoothingLength"%string = Some h ->
  (exists o, open_after [f; g] [] = Some o /\ hdf_kernel o = KeyErr) /\
  (exists o, open_after [f; g] [1%Z] = Some o /\ hdf_kernel o = Val 1%Z).
Proof. exact C72_kernel_refuted_aux. Qed.
Print Assumptions C72_kernel_refuted.

(** Kernels of BigFile snapshots: cubic, quintic, or an error. *)
Theorem C72_big_kernel : forall attr,
  (big_kernel attr = Val 1%Z <-> attr = None \/ attr = Some 1%Z) /\
  (big_kernel attr = Val 3%Z <-> attr = Some 2%Z \/ attr = Some 3%Z) /\
  (big_kernel attr = AssertErr <-> exists k, attr = Some k /\ ~ (1 <= k <= 3)%Z).
Proof. exact C72_big_kernel_aux. Qed.
Print Assumptions C72_big_kernel.

(** The number of particles is put together from its halves. *)
Theorem C72_npart : forall total, (0 <= total < 2 ^ 64)%Z -> npart_total (total mod 2 ^ 32) (total / 2 ^ 32) = total.
Proof. exact C72_npart_aux. Qed.
Print Assumptions C72_npart.

(** The baryon density is right, whatever was read before, if every file holds gas and dark matter in the
    cosmic proportion. *)
Theorem C72_omega : forall fs om ob, fs <> [] ->
  (forall f, In f fs -> omega0 f = om /\ exists bar dm, masses f bar dm /\ 0 < bar + dm /\ bar * (om - ob) = dm * ob) ->
  forall reads, Forall (valid fs) reads -> exists f, open_after fs reads = Some f /\ omega_baryon f = Val ob.
Proof. exact C72_omega_aux. Qed.
Print Assumptions C72_omega.

Example C72_omega_example : (* 2 of gas, 10 of dark matter: Omega_b = 0.05 of 0.3 *)
  exists bar dm, masses (gadget [1; 1] [1; 1]) bar dm /\ 0 < bar + dm /\ bar * (0.3 - 0.05) = dm * 0.05.
Proof.
  exists (1 + (1 + 0)), (2 * 5). split; [|split; lra]. do 2 eexists. split; [reflexivity|]. split; [reflexivity|]. split; reflexivity.
Qed.

(** Otherwise it is not: all matter counts as baryons if dark matter particles carry their own masses, and
    different files give different values. *)
Theorem C72_omega_refuted :
  (forall f bar dm, masses f bar dm -> dm_mass f = 0 -> 0 < bar -> omega_baryon f = Val (omega0 f)) /\
  (forall f g bar dm bar' dm', masses f bar dm -> masses g bar' dm' -> omega0 f = omega0 g -> 0 < omega0 f ->
     0 < bar + dm -> 0 < bar' + dm' -> bar * dm' <> bar' * dm ->
     exists o o', option_map omega_baryon (open_after [f; g] []) = Some (Val o) /\
       option_map omega_baryon (open_after [f; g] [1%Z]) = Some (Val o') /\ o <> o').
Proof. exact C72_omega_refuted_aux. Qed.
Print Assumptions C72_omega_refuted.
