(** C68: density weighted temperature, velocity and density along sightlines. *)
From Coq Require Import ZArith List Reals Bool Lra Lia Permutation.
From Verif Require Import Containers IndexModel IndexSpec AbsorptionModel AbsorptionSpec PipelineModel PipelineSpec PipelineProofs PipelineProps
  WeightModel WeightSpec WeightProofs WeightProofs2 WeightProofs3.
Import ListNotations.
Local Open Scope R_scope.

(** What a rank returns: the contribution of its own particles [mine], divided by the density of all. *)
Theorem C68_temp : forall phys pos su ls mine ranks others,
  (0 < su_nbins su)%nat -> su_kern su <> Voronoi -> 0 < su_unit su -> 0 < phys ->
  Forall (good_line (su_box su)) ls -> rank_ok pos su ls mine -> Forall (rank_ok pos su ls) ranks ->
  Permutation (all_gas ranks) (all_gas [mine] ++ others) -> Forall (fun g => 0 <= g_dens g) (all_gas ranks) ->
  exists out, get_temp HDF5 phys pos su ls mine ranks = Done out /\ length out = (length ls * su_nbins su)%nat /\
    forall i l j, nth_error ls i = Some l -> (j < su_nbins su)%nat ->
      share su l j g_temp (all_gas [mine]) (all_gas ranks) (nth (i * su_nbins su + j) out 0).
Proof. exact C68_temp_aux. Qed.
Print Assumptions C68_temp.

(** On one rank every pixel with gas is between the coldest and the hottest particle. *)
Theorem C68_temp_range : forall phys pos su ls mine lo hi,
  (0 < su_nbins su)%nat -> su_kern su <> Voronoi -> 0 < su_unit su -> 0 < phys ->
  Forall (good_line (su_box su)) ls -> rank_ok pos su ls mine ->
  Forall (fun g => 0 <= g_dens g) (all_gas [mine]) -> Forall (fun g => lo <= g_temp g <= hi) (all_gas [mine]) ->
  exists out, get_temp HDF5 phys pos su ls mine [mine] = Done out /\
    forall i l j, nth_error ls i = Some l -> (j < su_nbins su)%nat ->
      lo <= nth (i * su_nbins su + j) out 0 <= hi \/
      (nth (i * su_nbins su + j) out 0 = 0 /\ pixel_sum Column su l j (all_gas [mine]) 0).
Proof. exact C68_temp_range_aux. Qed.
Print Assumptions C68_temp_range.

(** The density of an element, weighted with the density of one of its ions. *)
Theorem C68_species : forall sp rs phys pos su ls mine ranks others,
  (0 < su_nbins su)%nat -> su_kern su <> Voronoi -> 0 < su_unit su -> 0 < phys ->
  Forall (good_line (su_box su)) ls -> rank_ok pos su ls mine -> Forall (rank_ok pos su ls) ranks ->
  Permutation (all_gas ranks) (all_gas [mine] ++ others) -> Forall (fun g => 0 <= g_dens g) (all_gas ranks) ->
  (pos = true -> Forall (fun g => 0 < g_dens g) (all_gas [mine])) ->
  exists out, get_dens_weighted_density HDF5 sp rs phys pos su ls mine ranks = Done out /\
    length out = (length ls * su_nbins su)%nat /\
    forall i l j, nth_error ls i = Some l -> (j < su_nbins su)%nat ->
      share su l j (fun g => sp g / rs) (all_gas [mine]) (all_gas ranks) (nth (i * su_nbins su + j) out 0).
Proof. exact C68_species_aux. Qed.
Print Assumptions C68_species.

(** With the particles without the ion removed it fails as soon as there is one of each near a line. *)
Theorem C68_species_refuted : forall sp rs phys su ls mine ranks g1 g2,
  Forall (good_line (su_box su)) ls -> segment_ok true su ls (fst mine) ->
  In g1 (fst (fst mine)) -> touches su ls g1 -> 0 < g_dens g1 ->
  In g2 (fst (fst mine)) -> touches su ls g2 -> g_dens g2 = 0 ->
  get_dens_weighted_density HDF5 sp rs phys true su ls mine ranks = Lengths.
Proof. exact C68_species_refuted_aux. Qed.
Print Assumptions C68_species_refuted.

(** The three components of the velocity, multiplied once more by the root of the scale factor. *)
Theorem C68_velocity : forall atime phys pos su ls mine ranks others,
  (0 < su_nbins su)%nat -> su_kern su <> Voronoi -> 0 < su_unit su -> 0 < phys ->
  Forall (good_line (su_box su)) ls -> rank_ok pos su ls mine -> Forall (rank_ok pos su ls) ranks ->
  Permutation (all_gas ranks) (all_gas [mine] ++ others) -> Forall (fun g => 0 <= g_dens g) (all_gas ranks) ->
  su_nbins su <> 3%nat ->
  exists v, get_velocity HDF5 atime phys pos su ls mine ranks = Done v /\
    forall i l j, nth_error ls i = Some l -> (j < su_nbins su)%nat ->
      share su l j (fun g => fst (fst (g_vel g)) * sqrt atime) (all_gas [mine]) (all_gas ranks) (v i j 0%nat) /\
      share su l j (fun g => snd (fst (g_vel g)) * sqrt atime) (all_gas [mine]) (all_gas ranks) (v i j 1%nat) /\
      share su l j (fun g => snd (g_vel g) * sqrt atime) (all_gas [mine]) (all_gas ranks) (v i j 2%nat).
Proof. exact C68_velocity_aux. Qed.
Print Assumptions C68_velocity.

(** So gas moving with velocity 1 is reported with velocity sqrt(a). *)
Theorem C68_velocity_refuted : forall profile atime, exists su ls s g,
  su_kern su = TopHat /\ su_profile su = profile /\ rank_ok false su ls (s, []) /\ Forall (good_line (su_box su)) ls /\
  fst s = [g] /\ g_vel g = (1, 1, 1) /\ 0 < g_dens g /\
  exists v, get_velocity HDF5 atime 1 false su ls (s, []) [(s, [])] = Done v /\
    v 0%nat 0%nat 0%nat = sqrt atime /\ v 0%nat 0%nat 1%nat = sqrt atime /\ v 0%nat 0%nat 2%nat = sqrt atime.
Proof. exact C68_velocity_refuted_aux. Qed.
Print Assumptions C68_velocity_refuted.

(** With three pixels and one line the density is taken along the wrong axis. *)
Theorem C68_three_refuted : forall profile, exists su ls s g,
  su_kern su = TopHat /\ su_profile su = profile /\ su_nbins su = 3%nat /\ rank_ok false su ls (s, []) /\
  Forall (good_line (su_box su)) ls /\ fst s = [g] /\ g_vel g = (1, 1, 1) /\ 0 < g_dens g /\
  exists v, get_velocity HDF5 1 1 false su ls (s, []) [(s, [])] = Done v /\
    v 0%nat 0%nat 0%nat = 1 /\ v 0%nat 0%nat 1%nat = 3 / PI /\ v 0%nat 0%nat 2%nat = 3 / PI.
Proof. exact C68_three_refuted_aux. Qed.
Print Assumptions C68_three_refuted.

(** Each rank has only its own share: gas at temperature 1 on two ranks is reported at 1/2. *)
Theorem C68_ranks_refuted : forall profile, exists su ls s g,
  su_kern su = TopHat /\ su_profile su = profile /\ rank_ok false su ls (s, []) /\ Forall (good_line (su_box su)) ls /\
  fst s = [g] /\ g_temp g = 1 /\ 0 < g_dens g /\
  exists one two, get_temp HDF5 1 false su ls (s, []) [(s, [])] = Done one /\
    get_temp HDF5 1 false su ls (s, []) [(s, []); (s, [])] = Done two /\ nth 0 one 0 = 1 /\ nth 0 two 0 = 1 / 2.
Proof. exact C68_ranks_refuted_aux. Qed.
Print Assumptions C68_ranks_refuted.

(** For the Voronoi kernel the numerator is made file by file, the density with all files at once: 2 for gas at 1. *)
Theorem C68_voronoi_refuted : forall profile, exists su ls (g : gas) s s',
  su_kern su = Voronoi /\ su_profile su = profile /\ good_gas su g /\ Forall (good_line (su_box su)) ls /\
  s = ([g], ([0%nat], ([0%nat], [0%nat]))) /\ segment_ok false su ls s /\ s' = ([g], ([0%nat], (seq 0 2, [0%nat]))) /\
  g_temp g = 1 /\ 0 < g_dens g /\
  get_temp HDF5 1 false su ls (s, []) [(s, [])] = Done [1] /\
  get_temp HDF5 1 false su ls (s, [s]) [(s', [s])] = Done [2].
Proof. exact C68_voronoi_refuted_aux. Qed.
Print Assumptions C68_voronoi_refuted.

(** None of them works for a BigFile snapshot. *)
Theorem C68_bigfile_refuted : forall atime phys sp rs pos su ls mine ranks,
  get_temp BigFile phys pos su ls mine ranks = MissingArgument /\
  get_velocity BigFile atime phys pos su ls mine ranks = MissingArgument /\
  get_dens_weighted_density BigFile sp rs phys pos su ls mine ranks = MissingArgument.
Proof. exact C68_bigfile_aux. Qed.
Print Assumptions C68_bigfile_refuted.

(** Two particles in one file, alone and with a second rank. *)
Example C68_case : let s := (ex_gas, ([0%nat; 1%nat], ([1%nat; 0%nat], [0%nat; 1%nat]))) in
  let s' := ([nth 0 ex_gas vor_gas], ([0%nat], ([0%nat], [1%nat; 0%nat]))) in
  (0 < su_nbins ex_setup)%nat /\ su_kern ex_setup <> Voronoi /\ 0 < su_unit ex_setup /\ su_nbins ex_setup <> 3%nat /\
  Forall (good_line (su_box ex_setup)) ex_lines /\
  rank_ok true ex_setup ex_lines (s, []) /\ rank_ok true ex_setup ex_lines (s', [s]) /\
  Forall (fun g => 0 < g_dens g) (all_gas [(s, [])]) /\ Forall (fun g => 1 <= g_temp g <= 4) (all_gas [(s, [])]).
Proof.
  destruct C06_case as (L & G & S1 & S2 & S3). cbv zeta.
  split; [cbn; lia|]. split; [discriminate|]. split; [cbn; lra|]. split; [cbn; lia|]. split; [exact L|].
  split; [split; [exact S1|constructor]|]. split; [split; [exact S2|constructor; [exact S1|constructor]]|].
  split; (constructor; [cbn; lra|constructor; [cbn; lra|constructor]]).
Qed.

(** A particle with and one without the ion, both near a line. *)
Example C68_species_case : let g2 := mkGas (mkPart 5 5 5 2) (0, 0, 0) 0 1 in let g1 := mkGas (mkPart 5 5 5 2) (0, 0, 0) 1 1 in
  segment_ok true ex_setup ex_lines ([g1; g2], ([0%nat; 1%nat], ([0%nat], [0%nat; 1%nat]))) /\
  touches ex_setup ex_lines g1 /\ touches ex_setup ex_lines g2.
Proof.
  cbv zeta.
  assert (T : forall d, touches ex_setup ex_lines (mkGas (mkPart 5 5 5 2) (0, 0, 0) d 1)).
  { intros d. exists (mkLine 1 0 5 5), 0%Z. split; [left; reflexivity|]. split; [|cbn; lia].
    exists 0%Z, 0%Z. split; [reflexivity|]. left. cbn. split; [reflexivity|]. split; (split; [exists 0%Z; reflexivity|intros k; lia]). }
  split; [|split; apply T].
  split. { repeat constructor; cbn; lia. }
  split; [unfold fits; cbn; lia|]. split. { intros _. constructor; [cbn; lra|constructor; [cbn; lra|constructor]]. }
  split; [apply Permutation_refl|]. split; [|apply Permutation_refl].
  intros kept E. cbn [fst snd] in E |- *. rewrite read_particles_filter in E by (try apply Permutation_refl; cbn; lia).
  injection E as <-. cbn [filter].
  assert (K1 : kept_by true ex_setup ex_lines (mkGas (mkPart 5 5 5 2) (0, 0, 0) 1 1) = true).
  { unfold kept_by. match goal with |- match ?x with _ => _ end = _ => let y := eval vm_compute in x in change x with y end.
    cbv iota. cbn [g_dens]. destruct (Rlt_dec 0 1); [reflexivity|lra]. }
  assert (K2 : kept_by true ex_setup ex_lines (mkGas (mkPart 5 5 5 2) (0, 0, 0) 0 1) = false).
  { unfold kept_by. match goal with |- match ?x with _ => _ end = _ => let y := eval vm_compute in x in change x with y end.
    cbv iota. cbn [g_dens]. destruct (Rlt_dec 0 0); [lra|reflexivity]. }
  rewrite K1, K2. apply Permutation_refl.
Qed.
