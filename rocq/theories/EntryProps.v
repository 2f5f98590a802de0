(** C89 and C90: the functions of the extension module. *)
From Coq Require Import List Bool ZArith Arith Lia.
From Verif Require Import EntryModel EntrySpec EntryProofs EntryProofs2 EntryProofs3.
From Verif Require ParticleModel ParticleProps.
Import ListNotations.
Local Open Scope Z_scope.

(** ** C89: which arguments are accepted, and what memory is touched *)

Theorem C89_near_outcome : forall q,
  (snd (near_lines q) = Returned <-> near_shapes q /\ line_types (n_cofm q) (n_axis q) /\ a_type (n_pos q) = Float32 /\ a_type (n_hh q) = Float32) /\
  (snd (near_lines q) = Undefined <-> (2 <= length (a_shape (n_cofm q)))%nat /\ a_shape (n_axis q) <> [] /\ a_shape (n_pos q) = []) /\
  (snd (near_lines q) = Raised TypeError <-> near_shapes q /\ line_types (n_cofm q) (n_axis q) /\ ~ (a_type (n_pos q) = Float32 /\ a_type (n_hh q) = Float32)) /\
  (snd (near_lines q) <> Returned -> fst (near_lines q) = []).
Proof. exact near_outcome_aux. Qed.

Theorem C89_near_safe : forall q m n, near_sound q m n ->
  snd (near_lines q) = Returned /\ forall out, Forall (in_bounds (near_args q) out) (fst (near_lines q)).
Proof. exact near_safe_aux. Qed.

(** The length of the smoothing lengths is not checked. *)
Theorem C89_near_refuted : forall q i, snd (near_lines q) = Returned ->
  (exists p, first_dim (n_pos q) p /\ Z.of_nat i < p) -> elements (n_hh q) <= Z.of_nat i ->
  forall out, exists e, In e (fst (near_lines q)) /\ ~ in_bounds (near_args q) out e.
Proof. exact near_unchecked_aux. Qed.

Theorem C89_interp_outcome : forall q,
  (snd (interpolate q) = Returned <-> interp_types q /\ interp_lengths q /\ 0 < q_nbins q) /\
  (snd (interpolate q) = Raised TypeError <-> ~ interp_types q) /\
  (complete_dims q -> (snd (interpolate q) = Raised ValueError <-> interp_types q /\ ~ interp_lengths q)) /\
  (forall e, snd (interpolate q) = Raised e -> fst (interpolate q) = []).
Proof. exact interp_outcome_aux. Qed.

Theorem C89_interp_safe : forall q m n, interp_sound q m n ->
  snd (interpolate q) = Returned /\ Forall (in_bounds (interp_args q) (Z.of_nat n * q_nbins q * 8)) (fst (interpolate q)).
Proof. exact interp_safe_aux. Qed.

(** The sizes of velocities and temperatures, the second dimension of positions and the values of axis are not checked, and an index of
    type int overflows. *)
Theorem C89_interp_refuted : forall q n l p, snd (interpolate q) = Returned -> first_dim (q_cofm q) n -> Z.of_nat l < n -> In p (q_near q l) ->
  (q_tau q = true /\ (elements (q_vel q) < 3 * Z.of_nat p + q_values q l \/ elements (q_temp q) <= Z.of_nat p)) \/
  elements (q_pos q) < 3 * Z.of_nat p + q_values q l \/ 3 * Z.of_nat p + q_values q l < 1 \/ 2147483648 < 3 * Z.of_nat p + q_values q l ->
  forall out, exists e, In e (fst (interpolate q)) /\ ~ in_bounds (interp_args q) out e.
Proof. exact interp_unchecked_aux. Qed.

(** Exactly the pixels of the lines are written, as long as the index of the first pixel of the last line fits. *)
Theorem C89_rows : forall q m n i, interp_sound q m n -> (Z.of_nat n - 1) * q_nbins q < 4294967296 ->
  (In (Write Output 8 i) (fst (interpolate q)) <->
   exists l p j, (l < n)%nat /\ In p (q_near q l) /\ In j (q_bins q l p) /\ i = Z.of_nat l * q_nbins q + j).
Proof. exact rows_small_aux. Qed.

Theorem C89_rows_refuted : forall n nb l, (l < n)%nat -> 0 < nb -> 4294967296 <= Z.of_nat l * nb ->
  exists q, interp_sound q 1 n /\ q_nbins q = nb /\ (forall k, q_near q k = if (k =? l)%nat then [0%nat] else []) /\ (forall k p, q_bins q k p = [0]) /\
    ~ In (Write Output 8 (Z.of_nat l * nb)) (fst (interpolate q)).
Proof. exact rows_wrap_aux. Qed.

Theorem C89_scale : forall tau nb passes out, a_type tau = Float64 -> 0 < nb -> (0 < passes)%nat ->
  snd (rescale tau nb passes) = Returned /\ (Forall (in_bounds [tau] out) (fst (rescale tau nb passes)) <-> nb <= elements tau).
Proof. exact rescale_bounds_aux. Qed.

Theorem C89_table : forall q nx ny m, a_type (t_a q) = Float32 -> a_type (t_b q) = Float32 ->
  first_dim (t_x q) nx -> first_dim (t_y q) ny -> a_shape (t_a q) = [m] -> 0 < nx -> 0 < ny -> 0 < m ->
  snd (interpolate_2d q) = (if t_bad q then Raised AttributeError else Returned) /\
  (Forall (in_bounds (table_args q) (m * 4)) (fst (interpolate_2d q)) <->
   holds_doubles (t_x q) nx /\ holds_doubles (t_y q) ny /\ holds_doubles (t_grid q) (nx * ny) /\ m <= elements (t_b q)).
Proof. exact table_bounds_aux. Qed.

(** The arrays the package reads from a snapshot, over any number of segments, always have sizes that fit. *)
Theorem C89_package : forall r reads first rest a contig nbins mesh n values visit near bins,
  (forall x, In x reads -> exists tb s ind, x = ParticleModel.read_indexed tb r s ind) ->
  reads = first :: rest -> ParticleModel.load_all_arrays r first rest = ParticleModel.Read a ->
  0 < nbins -> Z.of_nat (length (ParticleModel.a_pos a)) <= 715827882 ->
  interp_indices (package_call r a contig nbins mesh n values visit near bins) (length (ParticleModel.a_pos a)) n ->
  snd (interpolate (package_call r a contig nbins mesh n values visit near bins)) = Returned /\
  Forall (in_bounds (interp_args (package_call r a contig nbins mesh n values visit near bins)) (Z.of_nat n * nbins * 8))
    (fst (interpolate (package_call r a contig nbins mesh n values visit near bins))).
Proof. exact package_aux. Qed.

(** ** C90: references *)

Theorem C90_near : forall q, snd (near_lines q) <> Undefined -> balanced (fst (near_lines q)) (snd (near_lines q)) /\ alive (fst (near_lines q)).
Proof. exact near_refs_aux. Qed.

Theorem C90_interp : forall q, snd (interpolate q) <> Undefined -> balanced (fst (interpolate q)) (snd (interpolate q)) /\ alive (fst (interpolate q)).
Proof. exact interp_refs_aux. Qed.

(** Rescaling keeps a reference to an array of another type, which it refuses. *)
Theorem C90_scale : forall tau nb passes,
  (a_type tau = Float64 -> snd (rescale tau nb passes) = Returned /\ (forall o, gained o (fst (rescale tau nb passes)) = 0) /\ alive (fst (rescale tau nb passes))) /\
  (a_type tau <> Float64 -> snd (rescale tau nb passes) = Raised TypeError /\
     gained (if a_contig tau then Arg 0 else Copy 0) (fst (rescale tau nb passes)) = 1).
Proof. exact rescale_refs_aux. Qed.

(** Every interpolation in a table keeps a reference to both particle arrays, and one that fails also the output and the interpolator. *)
Theorem C90_table_refuted : forall q nx ny m, a_type (t_a q) = Float32 -> a_type (t_b q) = Float32 ->
  first_dim (t_x q) nx -> first_dim (t_y q) ny -> first_dim (t_a q) m ->
  gained (if a_contig (t_a q) then Arg 0 else Copy 0) (fst (interpolate_2d q)) = 1 /\
  gained (if a_contig (t_b q) then Arg 1 else Copy 1) (fst (interpolate_2d q)) = 1 /\
  gained Output (fst (interpolate_2d q)) = 1 /\
  gained Interpolator (fst (interpolate_2d q)) = if t_bad q then 1 else 0.
Proof. exact table_leak_aux. Qed.

(** ** The hypotheses are met *)

Definition two : interp_call := mkInterp true 5 true (mkArray Float32 [3; 3] true) (mkArray Float32 [3; 3] false) (mkArray Float32 [3] true)
  (mkArray Float32 [3] true) (mkArray Float32 [3] false) (mkArray Int32 [2] true) (mkArray Float64 [2; 3] true)
  (fun l => Z.of_nat l + 1) (fun _ => [0%nat; 1%nat]) (fun l => if (l =? 0)%nat then [0%nat; 2%nat] else [1%nat]) (fun _ _ => [4; 0; 1]).

(** Three particles, two lines, five bins, the Voronoi mesh, and two arrays that are not contiguous. *)
Example two_sound : interp_sound two 3 2 /\ (Z.of_nat 2 - 1) * q_nbins two < 4294967296 /\ length (fst (interpolate two)) = 86%nat.
Proof.
  split; [|split; [cbn; lia|]].
  - unfold interp_sound, interp_types, line_types, interp_indices, two.
    cbn [q_pos q_dens q_h q_vel q_temp q_axis q_cofm q_tau q_nbins a_shape a_type q_visit q_near q_bins q_values].
    repeat split; try lia; intros; cbn in *;
      try (repeat (destruct H as [<- |H]; [lia|]); contradiction).
    + destruct (l =? 0)%nat; cbn in H; repeat (destruct H as [<- |H]; [lia|]); contradiction.
  - vm_compute. reflexivity.
Qed.

(** The same call with a particle fewer in the velocities: it is accepted, and reads past their end. *)
Definition short : interp_call := mkInterp true 5 true (mkArray Float32 [3; 3] true) (mkArray Float32 [2; 3] false) (mkArray Float32 [3] true)
  (mkArray Float32 [3] true) (mkArray Float32 [3] false) (mkArray Int32 [2] true) (mkArray Float64 [2; 3] true)
  (fun l => Z.of_nat l + 1) (fun _ => [0%nat; 1%nat]) (fun l => if (l =? 0)%nat then [0%nat; 2%nat] else [1%nat]) (fun _ _ => [4; 0; 1]).
Example short_read : snd (interpolate short) = Returned /\ exists e, In e (fst (interpolate short)) /\ ~ in_bounds (interp_args short) 80 e.
Proof.
  split; [reflexivity|]. apply (C89_interp_refuted short 2 0 2); [reflexivity|exists [3]; reflexivity|lia|right; left; reflexivity|].
  left. split; [reflexivity|]. left. cbn. lia.
Qed.

Definition near2 : near_call := mkNear (mkArray Float32 [3; 3] true) (mkArray Float32 [3] true) (mkArray Int32 [2] true) (mkArray Float64 [2; 3] false)
  (fun l => Z.of_nat l + 1) (fun _ => [1%nat]).
Example near2_sound : near_sound near2 3 2 /\ length (fst (near_lines near2)) = 33%nat.
Proof.
  split; [|vm_compute; reflexivity]. unfold near_sound, line_types, near2. cbn [n_pos n_hh n_axis n_cofm a_shape a_type n_visit]. repeat split.
  intros i l [<- |[]]. lia.
Qed.
Definition near_short : near_call := mkNear (mkArray Float32 [3; 3] true) (mkArray Float32 [2] true) (mkArray Int32 [2] true) (mkArray Float64 [2; 3] false)
  (fun l => Z.of_nat l + 1) (fun _ => [1%nat]).
Example near_short_read : snd (near_lines near_short) = Returned /\ (exists p, first_dim (n_pos near_short) p /\ Z.of_nat 2 < p) /\ elements (n_hh near_short) <= Z.of_nat 2.
Proof. split; [reflexivity|]. split; [exists 3; split; [exists [3]; reflexivity|lia]|vm_compute; discriminate]. Qed.

Definition table2 (bad : bool) : table_call :=
  mkTable (mkArray Float32 [7] true) (mkArray Float32 [7] false) (mkArray Float64 [4] true) (mkArray Float64 [5] true) (mkArray Float64 [4; 5] true) bad.
Example table2_meets : holds_doubles (t_x (table2 true)) 4 /\ holds_doubles (t_y (table2 true)) 5 /\ holds_doubles (t_grid (table2 true)) (4 * 5) /\
  7 <= elements (t_b (table2 true)) /\ first_dim (t_x (table2 true)) 4.
Proof. unfold holds_doubles, elements. cbn. repeat split; try lia. exists []. reflexivity. Qed.
(** A table of 32 bit floats is read as if it held doubles. *)
Example table_float : ~ holds_doubles (mkArray Float32 [4; 5] true) 20.
Proof. intros (_ & H). cbn in H. lia. Qed.
(** Sixty-five thousand lines of a hundred thousand pixels. *)
Example rows_meet : (64999 < 65000)%Z /\ 4294967296 <= 64999 * 100000.
Proof. lia. Qed.

(** Two segments with two particles that contain carbon each. *)
Example package_meets : exists a, let x := ParticleModel.read_indexed ParticleProps.cloudy ParticleProps.carbon4 ParticleProps.seg3 [0; 1; 2]%nat in
  ParticleModel.load_all_arrays ParticleProps.carbon4 x [x] = ParticleModel.Read a /\ length (ParticleModel.a_pos a) = 4%nat /\
  interp_indices (package_call ParticleProps.carbon4 a (fun _ => true) 5 false 2 (fun l => Z.of_nat l + 1) (fun _ => [1%nat]) (fun _ => [0%nat; 3%nat]) (fun _ _ => [4; 0])) 4 2.
Proof.
  destruct ParticleProps.carbon_read as (a & E & P & _). cbv zeta. rewrite E. eexists. split; [reflexivity|]. split; [cbn; now rewrite P|].
  unfold interp_indices, package_call. cbn [q_visit q_near q_bins q_values q_nbins].
  repeat split; intros; try (repeat (destruct H as [<- |H]; [lia|]); contradiction). lia.
Qed.

Print Assumptions C89_near_outcome.
Print Assumptions C89_near_safe.
Print Assumptions C89_near_refuted.
Print Assumptions C89_interp_outcome.
Print Assumptions C89_interp_safe.
Print Assumptions C89_interp_refuted.
Print Assumptions C89_rows.
Print Assumptions C89_rows_refuted.
Print Assumptions C89_scale.
Print Assumptions C89_table.
Print Assumptions C89_package.
Print Assumptions C90_near.
Print Assumptions C90_interp.
Print Assumptions C90_scale.
Print Assumptions C90_table_refuted.
