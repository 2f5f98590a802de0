(** Properties C86, C87 and C88: how the C extractor reads and converts particles, and its output file. *)
From Coq Require Import Ascii String.
From Coq Require Import Reals List Bool ZArith Arith Lia Lra.
From Verif Require Import CreadModel CreadSpec CreadProofs CreadProofs2 CreadProofs3.
From Verif Require QuantModel GaspropModel CstatModel.
Import ListNotations.
Local Open Scope R_scope.

(** C86.  Of a file with all blocks every particle is handed on with its position and velocity, the column density of neutral
    hydrogen per unit of length, the temperature and half the smoothing length (for cells, a power of the volume). *)
Theorem C86_complete : forall a h hd g n pos vel dens u ne fr hv, 0 < a -> 0 < h -> sound g ->
  h_cooling hd = true -> (0 < n <= h_npart hd)%nat ->
  block g "Coordinates" [n; 3%nat] pos -> block g "Velocities" [n; 3%nat] vel ->
  block g "InternalEnergy" [n] u -> block g "ElectronAbundance" [n] ne -> Forall (fun x => 0 <= x) ne ->
  block g "NeutralHydrogenAbundance" [n] fr -> lengths_of g n hv -> densities_of (h_mass hd) g n hv dens ->
  exists l, extract_file a h (mkSnap (Some hd) (Some g)) = Some l /\
    Forall2 (fun i p => particle a h pos vel i (nth i dens 0) (nth i fr 0) (nth i u 0) (nth i ne 0) (nth i hv 0) p) (seq 0 n) l.
Proof. exact C86_complete_aux. Qed.
Print Assumptions C86_complete.

(** The number of particles is that of the rows of Coordinates, whatever the other blocks are. *)
Theorem C86_count : forall a h hd g, exists l, extract_file a h (mkSnap (Some hd) (Some g)) = Some l /\
  ((0 < length l)%nat -> has_block g "Coordinates" [length l; 3%nat] /\ (length l <= h_npart hd)%nat) /\
  (forall n, has_block g "Coordinates" [n; 3%nat] -> (n <= h_npart hd)%nat -> length l = n).
Proof. exact C86_count_aux. Qed.
Print Assumptions C86_count.

(** All numbers used have been read exactly if there are no particles or all blocks are there and the cooling flag is set. *)
Theorem C86_determinate : forall a h hd g l, sound g -> extract_file a h (mkSnap (Some hd) (Some g)) = Some l ->
  (Forall determinate l <-> l = [] \/ (h_cooling hd = true /\ blocks_present (h_mass hd) g (length l))).
Proof. exact C86_determinate_aux. Qed.
Print Assumptions C86_determinate.

(** So a file lacking a block, or without cooling, is not refused: numbers nobody has read are interpolated. *)
Theorem C86_missing_refuted : forall a h hd g n, sound g -> has_block g "Coordinates" [n; 3%nat] -> (0 < n <= h_npart hd)%nat ->
  h_cooling hd = false \/ ~ blocks_present (h_mass hd) g n ->
  exists l, extract_file a h (mkSnap (Some hd) (Some g)) = Some l /\ length l = n /\ ~ Forall determinate l.
Proof.
  intros a h hd g n W C N B. destruct (C86_count a h hd g) as (l & E & _ & L). specialize (L n C ltac:(lia)).
  exists l. split; [exact E|]. split; [exact L|]. intros F. apply (C86_determinate a h hd g l W E) in F. rewrite L in F.
  destruct F as [-> | (F1 & F2)]; [cbn in L; lia|]. destruct B as [B|B]; [congruence|contradiction].
Qed.
Print Assumptions C86_missing_refuted.

(** A file without gas gives no particles; without a header nothing is allocated. *)
Theorem C86_absent : forall a h s,
  (s_header s = None -> extract_file a h s = None) /\
  (forall hd, s_header s = Some hd -> s_gas s = None -> extract_file a h s = Some []).
Proof. intros a h [[hd|] [g|]]; cbn; split; intros; try discriminate; reflexivity. Qed.
Print Assumptions C86_absent.

(** A small file with all blocks, and one without electrons. *)
Definition sample (electrons : bool) : group := fun x =>
  if String.eqb x "Coordinates" || String.eqb x "Velocities" then Some (mkDataset [1; 3]%nat true 4 true [1; 2; 3])
  else if String.eqb x "ElectronAbundance" && negb electrons then None
  else if String.eqb x "Volume" then None
  else Some (mkDataset [1]%nat true 4 true [1]).

Lemma sample_sound : forall e, sound (sample e).
Proof.
  intros e name d. unfold sample. destruct (String.eqb name "Coordinates" || String.eqb name "Velocities"); [intros E; now injection E as <-|].
  destruct (String.eqb name "ElectronAbundance" && negb e); [discriminate|]. destruct (String.eqb name "Volume"); [discriminate|].
  intros E. now injection E as <-.
Qed.

Ltac block_ := eexists; cbn; repeat split; reflexivity.

Example C86_case : sound (sample true) /\
  exists l, extract_file (1 / 4) 0.7 (mkSnap (Some (mkHeader 1 0 true)) (Some (sample true))) = Some l /\ length l = 1%nat /\ Forall determinate l.
Proof.
  split; [apply sample_sound|]. destruct (C86_count (1 / 4) 0.7 (mkHeader 1 0 true) (sample true)) as (l & E & _ & L).
  specialize (L 1%nat ltac:(eexists; block_) ltac:(cbn; lia)). exists l. split; [exact E|]. split; [exact L|].
  apply (C86_determinate _ _ _ _ _ (sample_sound true) E). right. split; [reflexivity|]. rewrite L. unfold blocks_present.
  split; [eexists; block_|]. split; [right; left; eexists; block_|]. repeat (split; [eexists; block_|]). cbn. eexists; block_.
Qed.

Example C86_complete_case : exists l, extract_file (1 / 4) 0.7 (mkSnap (Some (mkHeader 1 0 true)) (Some (sample true))) = Some l /\
  Forall2 (fun i p => particle (1 / 4) 0.7 [1; 2; 3] [1; 2; 3] i (nth i [1] 0) (nth i [1] 0) (nth i [1] 0) (nth i [1] 0) (nth i [1 / 2] 0) p) (seq 0 1) l.
Proof.
  apply C86_complete; try lra; try (apply sample_sound); try reflexivity; try (cbn; lia); try block_.
  - constructor; [lra|constructor].
  - left. split; [reflexivity|]. exists [1]. split; [block_|reflexivity].
  - split; [reflexivity|]. left. split; [reflexivity|block_].
Qed.

Example C86_missing_case : exists l, extract_file (1 / 4) 0.7 (mkSnap (Some (mkHeader 1 0 true)) (Some (sample false))) = Some l /\
  length l = 1%nat /\ ~ Forall determinate l.
Proof.
  apply C86_missing_refuted; [apply sample_sound|eexists; block_|cbn; lia|]. right. intros (_ & _ & _ & (v & d & E & _) & _). discriminate.
Qed.

(** The density is the constant particle mass of the header if this is not zero, although the block Density is there. *)
Example C86_mass_case : densities_of 5 (sample true) 1 [1 / 2] [5] /\ has_block (sample true) "Density" [1%nat].
Proof.
  split; [|eexists; block_]. split; [reflexivity|]. right. right. split; [lra|]. intros i I. destruct i; [reflexivity|lia].
Qed.

(** C87.  The expansion rate is that of Friedmann's equation with curvature. *)
Theorem C87_hubble : forall a h o l, 0 < a -> hz a h o l = 100 * h * sqrt (o / a ^ 3 + (1 - o - l) / a ^ 2 + l).
Proof. exact C87_hubble_aux. Qed.
Print Assumptions C87_hubble.

(** In a flat universe velocities are those of the python package. *)
Theorem C87_velfac : forall a h o l, 0 < a -> h <> 0 -> o + l = 1 ->
  velfac a h (hz a h o l) = py_velfac 3.085678e21 a h (py_hz a h o l).
Proof. exact C87_velfac_aux. Qed.
Print Assumptions C87_velfac.

Theorem C87_curved_refuted : forall a h o l, 0 < a -> h <> 0 -> o + l <> 1 ->
  0 <= o / a ^ 3 + l -> 0 <= o / a ^ 3 + (1 - o - l) / a ^ 2 + l ->
  velfac a h (hz a h o l) <> py_velfac 3.085678e21 a h (py_hz a h o l).
Proof. exact C87_curved_aux. Qed.
Print Assumptions C87_curved_refuted.

Example C87_curved_case : 0 < 1 / 2 /\ 0.3 + 0.6 <> 1 /\ 0 <= 0.3 / (1 / 2) ^ 3 + 0.6 /\ 0 <= 0.3 / (1 / 2) ^ 3 + (1 - 0.3 - 0.6) / (1 / 2) ^ 2 + 0.6.
Proof. lra. Qed.

(** Below the threshold the column density is the one of the python package for the same neutral fraction. *)
Theorem C87_density : forall a h z d f n, 0 < a -> 0 < h -> 1 + z = / a -> hydrogen a h d n -> n <= 0.12948869200298072 ->
  exists rho, GaspropModel.get_code_rhoH QuantModel.default_units h z [d] = [rho] /\
    convert_density a h (Some d) (Some f) = Some (rho * py_rscale 3.085678e21 a h * 0.76 * f / 1.00794).
Proof. exact C87_density_aux. Qed.
Print Assumptions C87_density.

(** There is never more neutral hydrogen than hydrogen, and above the threshold all of it is neutral. *)
Theorem C87_neutral : forall a h d f, 0 < a -> 0 < h -> 0 <= d -> 0 <= f <= 1 ->
  exists n c, hydrogen a h d n /\ convert_density a h (Some d) (Some f) = Some c /\ 0 <= c <= n * (3.085678e21 / h * a) /\
    (0.12948869200298072 < n -> c = n * (3.085678e21 / h * a)).
Proof. exact C87_neutral_aux. Qed.
Print Assumptions C87_neutral.

(** Temperatures agree with those of the python package up to the value of Boltzmann's constant. *)
Theorem C87_temperature : forall u ne, 0 <= u -> 0 <= ne ->
  let tc := compute_temp u ne 0.76 in
  let tp := QuantModel.temp_one 0.76 ne (u * QuantModel.energy_unit QuantModel.default_units) in
  0 <= tp /\ tp <= tc <= tp * 1.000007.
Proof. exact C87_close_aux. Qed.
Print Assumptions C87_temperature.

(** For another unit of velocity they do not. *)
Theorem C87_units_refuted : forall u ne v, v <> 0 -> 0.76 * (0.75 + ne) + 0.25 <> 0 ->
  QuantModel.temp_one 0.76 ne (u * QuantModel.energy_unit (QuantModel.mkUnits 3.085678e21 1.98892e43 v)) * 1.38066e-16 =
  compute_temp u ne 0.76 * 1.3806504e-16 * (v / 1e5) ^ 2.
Proof. exact C87_temperature_aux. Qed.
Print Assumptions C87_units_refuted.

(** The velocities are those of the file, without the factor of the python package. *)
Theorem C87_velocity_refuted : forall a h hd g n pos vel header get i j, sound g ->
  block g "Coordinates" [n; 3%nat] pos -> (i < n <= h_npart hd)%nat -> block g "Velocities" [n; 3%nat] vel ->
  header "Time"%string = Some a -> get "Velocities"%string = QuantModel.Val vel -> (j < 3)%nat ->
  exists l vs x, extract_file a h (mkSnap (Some hd) (Some g)) = Some l /\ QuantModel.hdf_velocity header get = QuantModel.Val vs /\
    (exists p, nth_error l i = Some p /\ nth_error (g_vel p) j = Some (Some x)) /\
    nth_error vs (3 * i + j) = Some (x * sqrt a) /\
    (0 < a -> a <> 1 -> x <> 0 -> x * sqrt a <> x).
Proof. exact C87_velocity_aux. Qed.
Print Assumptions C87_velocity_refuted.

Example C87_velocity_case : exists l vs x,
  extract_file (1 / 4) 0.7 (mkSnap (Some (mkHeader 1 0 true)) (Some (sample true))) = Some l /\
  QuantModel.hdf_velocity (fun _ => Some (1 / 4)) (fun _ => QuantModel.Val [1; 2; 3]) = QuantModel.Val vs /\
  (exists p, nth_error l 0 = Some p /\ nth_error (g_vel p) 0 = Some (Some x)) /\ nth_error vs (3 * 0 + 0) = Some (x * sqrt (1 / 4)) /\
  (0 < 1 / 4 -> 1 / 4 <> 1 -> x <> 0 -> x * sqrt (1 / 4) <> x).
Proof. eapply C87_velocity_refuted; [apply sample_sound|block_| |block_|reflexivity|reflexivity|lia]. cbn. lia. Qed.

(** The header is accepted exactly if its attributes are there and the number of gas particles is not zero. *)
Theorem C87_header : forall a, (0 <= a_total a)%Z -> (forall x, a_high a = Some x -> (0 <= x)%Z) ->
  forall k, load_header a = Some k <->
    (exists t z b h o l c, a_time a = Some t /\ a_redshift a = Some z /\ a_box a = Some b /\ a_hubble a = Some h /\ a_omega0 a = Some o /\
       a_omegal a = Some l /\ a_cooling a = Some c /\ k = mkHdf t z (hz t h o l) b h) /\
    ((0 < a_total a)%Z \/ exists x, a_high a = Some x /\ (0 < x)%Z).
Proof. exact C87_header_aux. Qed.
Print Assumptions C87_header.

Example C87_header_case : load_header (mkAttributes (Some 1) (Some 0) (Some 10) (Some 0.7) (Some 0.3) (Some 0.7) (Some true) 0 (Some 1%Z)) =
  Some (mkHdf 1 0 (hz 1 0.7 0.3 0.7) 10 0.7).
Proof.
  apply C87_header; cbn; [lia|intros x E; injection E as <-; lia|]. split; [|right; exists 1%Z; split; [reflexivity|lia]].
  exists 1, 0, 10, 0.7, 0.3, 0.7, true. auto 10.
Qed.

(** C88.  The output file has a header of 128 bytes, and the statistics program reads back what was written. *)
Theorem C88_roundtrip : forall (byte : Type) (put_double : R -> list byte) (put_int : Z -> list byte) get_double get_int,
  encoding 8 put_double get_double -> encoding 4 put_int get_int ->
  forall z b nl tau col, (0 <= nl)%Z ->
  length (write_spectra byte put_double put_int z b nl tau col) = (128 + 8 * (length tau + length col))%nat /\
  stat_file byte get_double get_int (write_spectra byte put_double put_int z b nl tau col) =
  Some (CstatModel.mkFile z 1024 (Z.to_nat nl) (tau ++ col)).
Proof. exact (fun byte pd pi gd gi => @C88_roundtrip_aux byte pd pi gd gi). Qed.
Print Assumptions C88_roundtrip.

(** If the file was cut after its header, the statistics of the sightlines asked for are those of the optical depths alone, or the
    program ends with an error if some of these are missing. *)
Theorem C88_statistics : forall (byte : Type) (put_double : R -> list byte) (put_int : Z -> list byte) get_double get_int,
  encoding 8 put_double get_double -> encoding 4 put_int get_int ->
  forall z b n tau col k fft junk fuel o, (0 < n)%nat -> length tau = (1024 * n)%nat -> length col = (1024 * n)%nat ->
  (CstatModel.o_used o <= n)%nat -> (128 <= k)%nat ->
  exists f, stat_file byte get_double get_int (firstn k (write_spectra byte put_double put_int z b (Z.of_nat n) tau col)) = Some f /\
    let used := if Nat.eqb (CstatModel.o_used o) 0 then n else CstatModel.o_used o in
    CstatModel.statistic_main fft junk fuel o f =
      if (128 + 8 * (1024 * used) <=? k)%nat then CstatModel.statistic_main fft junk fuel o (CstatModel.mkFile z 1024 n tau)
      else CstatModel.ErrorExit.
Proof. exact (fun byte pd pi gd gi => @C88_statistics_aux byte pd pi gd gi). Qed.
Print Assumptions C88_statistics.

(** A shorter file leaves variables of the statistics program unset, which it does not notice. *)
Theorem C88_short_refuted : forall (byte : Type) get_double get_int (f : list byte), (length f < 128)%nat ->
  stat_file byte get_double get_int f = None.
Proof. exact (fun byte gd gi => @C88_header_cut_aux byte gd gi). Qed.
Print Assumptions C88_short_refuted.

(** Encodings exist. *)
Example C88_case : exists (put_double : R -> list R) (put_int : Z -> list R) get_double get_int,
  encoding 8 put_double get_double /\ encoding 4 put_int get_int.
Proof.
  exists (fun x => repeat x 8), (fun z => repeat (IZR z) 4), (fun l => nth 0 l 0), (fun l : list R => (up (nth 0 l 0%R) - 1)%Z).
  split; intros x; (split; [reflexivity|]); [reflexivity|]. cbn [repeat nth].
  assert (E : (x + 1 = up (IZR x))%Z); [|lia]. apply tech_up; rewrite plus_IZR; lra.
Qed.

(** Of each option the last one counts; the name of the output file gets its suffix, and may be empty.  From 2^21 sightlines on an int overflows. *)
Theorem C88_options : forall os,
  (forall c, begin os = Go c <-> means os c /\ (0 < c_numlos c <= 2097151)%Z /\ c_in c <> ""%string) /\
  (begin os = Exit 1 <-> In OptOther os) /\
  (begin os = Exit 99 <-> exists c, means os c /\ ((c_numlos c <= 0)%Z \/ c_in c = ""%string)) /\
  (begin os = Overflow <-> exists c, means os c /\ (2097152 <= c_numlos c)%Z /\ c_in c <> ""%string).
Proof. exact C88_options_aux. Qed.
Print Assumptions C88_options.

Example C88_options_case : begin [OptN 3; OptI "snap"; OptN 5] = Go (mkSettings "" "snap" 5 None).
Proof. reflexivity. Qed.
