(** C05, C06: whole spectra. *)
From Coq Require Import ZArith List Reals Lra Lia Permutation.
From Verif Require Import Containers IndexModel IndexSpec AbsorptionModel AbsorptionSpec PipelineModel
  PipelineSpec PipelineProofs.
Import ListNotations.
Local Open Scope R_scope.

(** C05: the result for a set of sightlines is, sightline by sightline, the result for that
    sightline alone (and one fails exactly if the other does), for every kernel. *)
Theorem C05_lines_independent : forall qu su ls gs op ol op1, (0 < su_nbins su)%nat -> fits su ls gs ->
  schedule (length gs) op -> schedule (length ls) ol -> schedule (length gs) op1 ->
  (forall out, interpolate qu su ls gs op ol = Some out <->
     length out = (length ls * su_nbins su)%nat /\
     forall i l, nth_error ls i = Some l ->
       interpolate qu su [l] gs op1 [0%nat] =
       Some (firstn (su_nbins su) (skipn (i * su_nbins su) out))).
Proof. exact C05_independent_aux. Qed.
Print Assumptions C05_lines_independent.

Theorem C05_any_schedule : forall qu su ls gs op ol op' ol', (0 < su_nbins su)%nat -> fits su ls gs ->
  schedule (length gs) op -> schedule (length ls) ol -> schedule (length gs) op' -> schedule (length ls) ol' ->
  interpolate qu su ls gs op ol = interpolate qu su ls gs op' ol'.
Proof. exact C05_schedule_aux. Qed.
Print Assumptions C05_any_schedule.

(** The parallel loop at the level of single additions: those of sightline i stay in its own
    pixels, so any interleaving gives the same array, whatever the rounding of the addition. *)
Theorem C05_any_interleaving : forall qu su ls gs op ol lists evss, (0 < su_nbins su)%nat -> fits su ls gs ->
  schedule (length gs) op -> schedule (length ls) ol ->
  get_near_particles (su_box su) ls (map g_part gs) op = Some lists ->
  length evss = length ls ->
  (forall i l near evs, nth_error ls i = Some l -> nth_error lists i = Some near ->
     nth_error evss i = Some evs -> line_events qu su gs i l near = Some evs) ->
  (forall i evs e, nth_error evss i = Some evs -> In e evs ->
     (Z.of_nat (i * su_nbins su) <= fst e < Z.of_nat ((i + 1) * su_nbins su))%Z) /\
  (forall (add : R -> R -> R) arr tr tr', length arr = (length ls * su_nbins su)%nat ->
     interleaving evss tr -> interleaving evss tr' ->
     exists out, apply_events add tr arr = Some out /\ apply_events add tr' arr = Some out) /\
  (forall tr, interleaving evss tr ->
     apply_events Rplus tr (repeat 0 (length ls * su_nbins su)) = interpolate qu su ls gs op ol).
Proof. exact C05_interleavings_aux. Qed.
Print Assumptions C05_any_interleaving.

(** Two particles, two sightlines along different axes, two pixels. *)
Definition ex_setup : setup := mkSetup TopHat (1 / 2) 10 2 (mkAbs 0 1 1 1 1 5) (fun _ _ => 0).
Definition ex_gas : list gas :=
  [mkGas (mkPart 5 5 5 2) (1, 2, 3) 1 4; mkGas (mkPart 9 4 5 2) (0, 0, 0) 3 1].
Definition ex_lines : list sightline := [mkLine 1 0 5 5; mkLine 3 5 4 0].

Example C05_case : (0 < su_nbins ex_setup)%nat /\ fits ex_setup ex_lines ex_gas /\
  schedule (length ex_gas) [1%nat; 0%nat] /\ schedule (length ex_lines) [1%nat; 0%nat].
Proof.
  split; [simpl; lia|]. split; [unfold fits; simpl; lia|].
  split; apply perm_swap.
Qed.

(** C06: every pixel is the sum over all particles of what each leaves alone. *)
Theorem C06_sum_over_particles : forall qu su ls gs op ol, (0 < su_nbins su)%nat -> su_kern su <> Voronoi ->
  fits su ls gs -> schedule (length gs) op -> schedule (length ls) ol ->
  Forall (good_gas su) gs -> Forall (good_line (su_box su)) ls ->
  exists out, interpolate qu su ls gs op ol = Some out /\ length out = (length ls * su_nbins su)%nat /\
  forall i l j, nth_error ls i = Some l -> (j < su_nbins su)%nat ->
    pixel_sum qu su l j gs (nth (i * su_nbins su + j) out 0).
Proof. exact C06_pixel_sum_aux. Qed.
Print Assumptions C06_sum_over_particles.

(** The same for particles spread over files and ranks, each file prefiltered. *)
Theorem C06_segments_and_ranks : forall qu pos su ls ranks, (0 < su_nbins su)%nat -> su_kern su <> Voronoi ->
  Forall (good_line (su_box su)) ls ->
  Forall (fun r => segment_ok pos su ls (fst r) /\ Forall (segment_ok pos su ls) (snd r)) ranks ->
  exists out, compute_spectra qu pos su ls ranks = Some out /\
    length out = (length ls * su_nbins su)%nat /\
    forall i l j, nth_error ls i = Some l -> (j < su_nbins su)%nat ->
      pixel_sum qu su l j (all_gas ranks) (nth (i * su_nbins su + j) out 0).
Proof. exact C06_ranks_aux. Qed.
Print Assumptions C06_segments_and_ranks.

(** Two splits of the same particles, in any order, give the same spectra. *)
Theorem C06_any_split : forall qu pos pos' su ls ranks ranks', (0 < su_nbins su)%nat -> su_kern su <> Voronoi ->
  Forall (good_line (su_box su)) ls ->
  Forall (fun r => segment_ok pos su ls (fst r) /\ Forall (segment_ok pos su ls) (snd r)) ranks ->
  Forall (fun r => segment_ok pos' su ls (fst r) /\ Forall (segment_ok pos' su ls) (snd r)) ranks' ->
  Permutation (all_gas ranks) (all_gas ranks') ->
  compute_spectra qu pos su ls ranks = compute_spectra qu pos' su ls ranks'.
Proof. exact C06_split_aux. Qed.
Print Assumptions C06_any_split.

(** In particular the same as one call on all the particles at once. *)
Theorem C06_single_file : forall qu pos su ls ranks gs op ol, (0 < su_nbins su)%nat -> su_kern su <> Voronoi ->
  Forall (good_line (su_box su)) ls ->
  Forall (fun r => segment_ok pos su ls (fst r) /\ Forall (segment_ok pos su ls) (snd r)) ranks ->
  Permutation (all_gas ranks) gs -> fits su ls gs -> schedule (length gs) op -> schedule (length ls) ol ->
  compute_spectra qu pos su ls ranks = interpolate qu su ls gs op ol.
Proof. exact C06_whole_aux. Qed.
Print Assumptions C06_single_file.

(** For the Voronoi kernel the split changes the answer: two particles at one place... *)
Theorem C06_voronoi_refuted : forall profile, exists su ls g, su_kern su = Voronoi /\ su_profile su = profile /\
  good_gas su g /\ Forall (good_line (su_box su)) ls /\
  interpolate Column su ls [g; g] [0%nat; 1%nat] [0%nat] = Some [10] /\
  interpolate Column su ls [g] [0%nat] [0%nat] = Some [10] /\
  compute_spectra Column false su ls
    [(([g], ([0%nat], ([0%nat], [0%nat]))), []); (([g], ([0%nat], ([0%nat], [0%nat]))), [])] = Some [20].
Proof. exact C06_voronoi_aux. Qed.
Print Assumptions C06_voronoi_refuted.

(** ... but loading all segments first gives, for every kernel, exactly the single-file result. *)
Theorem C06_loaded_first : forall qu pos su ls segs order op ol,
  Forall (fun s => (Z.of_nat (length (fst s)) <= 2 ^ 31)%Z /\ schedule (length (fst s)) (snd s)) segs ->
  (Z.of_nat (length (concat (map fst segs))) <= 2 ^ 31)%Z ->
  schedule (length (concat (map fst segs))) order ->
  interpolate_loaded qu pos su ls segs op ol =
  interpolate_segment qu pos su ls (concat (map fst segs)) (order, (op, ol)).
Proof. exact C06_loaded_aux. Qed.
Print Assumptions C06_loaded_first.

(** The size limit is needed: beyond 2^31/3 particles near the lines the position index overflows. *)
Theorem C06_overflow_refuted : forall profile, exists su ls gs, su_kern su = TopHat /\ su_profile su = profile /\
  Forall (good_gas su) gs /\ Forall (good_line (su_box su)) ls /\ (Z.of_nat (length gs) <= 2 ^ 31)%Z /\
  forall qu op ol, schedule (length gs) op -> schedule (length ls) ol -> interpolate qu su ls gs op ol = None.
Proof. exact C06_overflow_aux. Qed.
Print Assumptions C06_overflow_refuted.

(** The two example particles as one file, and as two ranks. *)
Example C06_case :
  Forall (good_line (su_box ex_setup)) ex_lines /\ Forall (good_gas ex_setup) ex_gas /\
  segment_ok true ex_setup ex_lines (ex_gas, ([0%nat; 1%nat], ([1%nat; 0%nat], [0%nat; 1%nat]))) /\
  segment_ok true ex_setup ex_lines ([nth 0 ex_gas vor_gas], ([0%nat], ([0%nat], [1%nat; 0%nat]))) /\
  segment_ok true ex_setup ex_lines ([], ([], ([], [0%nat; 1%nat]))).
Proof.
  assert (L : Forall (good_line (su_box ex_setup)) ex_lines).
  { apply Forall_forall. intros l [<-|[<-|[]]]; unfold good_line, inside; simpl; lia. }
  assert (G : Forall (good_gas ex_setup) ex_gas).
  { apply Forall_forall. intros g [<-|[<-|[]]]; unfold good_gas, good_particle, inside; simpl; lia. }
  assert (D : Forall (fun g => 0 <= g_dens g) ex_gas).
  { apply Forall_forall. intros g [<-|[<-|[]]]; simpl; lra. }
  split; [assumption|]. split; [assumption|].
  assert (K : forall gs order, incl gs ex_gas -> (length gs <= 2)%nat -> schedule (length gs) order ->
     read_particles true ex_setup ex_lines gs order = Some gs).
  { intros gs order Hi Hl Ho. rewrite read_particles_filter by (assumption || lia). f_equal.
    clear Ho Hl. induction gs as [|g gs IH]; [reflexivity|]. cbn [filter].
    assert (Kg : kept_by true ex_setup ex_lines g = true).
    { destruct (Hi g (or_introl eq_refl)) as [<-|[<-|[]]]; unfold kept_by.
      - match goal with |- match ?x with _ => _ end = _ => let y := eval vm_compute in x in change x with y end.
        cbv iota. simpl. destruct (Rlt_dec 0 1); [reflexivity|lra].
      - match goal with |- match ?x with _ => _ end = _ => let y := eval vm_compute in x in change x with y end.
        cbv iota. simpl. destruct (Rlt_dec 0 3); [reflexivity|lra]. }
    rewrite Kg, IH; [reflexivity|]. intros x Hx. apply Hi. right. assumption. }
  split; [|split].
  - split; [assumption|]. split; [unfold fits; simpl; lia|]. split; [intros _; assumption|].
    split; [apply Permutation_refl|]. split; [|apply Permutation_refl].
    intros kept E. cbn [fst snd] in E. rewrite K in E by (try apply incl_refl; try apply Permutation_refl; simpl; lia).
    injection E as <-. apply perm_swap.
  - split; [inversion G; constructor; [assumption|constructor]|]. split; [unfold fits; simpl; lia|].
    split; [intros _; inversion D; constructor; [assumption|constructor]|].
    split; [apply Permutation_refl|]. split; [|apply perm_swap].
    intros kept E. cbn [fst snd] in E.
    rewrite K in E; [injection E as <-; apply Permutation_refl| |simpl; lia|apply Permutation_refl].
    intros x [<-|[]]. left. reflexivity.
  - split; [constructor|]. split; [unfold fits; simpl; lia|]. split; [intros _; constructor|].
    split; [apply Permutation_refl|]. split; [|apply Permutation_refl].
    intros kept E. injection E as <-. apply Permutation_refl.
Qed.
