(** C105, C106: whole spectra under the symmetries of the periodic box, and their dependence on the amount of gas. *)
From Coq Require Import ZArith List Reals Lra Lia Permutation.
From Verif Require Import Containers IndexModel IndexSpec AbsorptionModel AbsorptionSpec PipelineModel PipelineSpec PipelineProofs
  SymmetrySpec SymmetryProofs SymmetryProofs2 SymmetryProofs3 SymmetryProofs4 SymmetryProofs5.
Import ListNotations.
Local Open Scope R_scope.

(** C105: rename or reverse the axes, displace by whole pixels, wrap in any way, permute the particles, regroup them over ranks: the columns move along and change in nothing else. *)
Theorem C105_column : forall M pos pos' su ls ls' ranks ranks' gs',
  isometry M -> (0 < su_nbins su)%nat -> su_kern su <> Voronoi -> matched su ->
  Forall (good_line (su_box su)) ls -> Forall (good_line (su_box su)) ls' ->
  ranks_ok pos su ls ranks -> ranks_ok pos' su ls' ranks' ->
  Permutation (all_gas ranks') gs' -> Forall2 (moved M (su_box su)) (all_gas ranks) gs' -> Forall2 (moved_line M (su_box su)) ls ls' ->
  exists out out', compute_spectra Column pos su ls ranks = Some out /\ compute_spectra Column pos' su ls' ranks' = Some out' /\
    length out = (length ls * su_nbins su)%nat /\ length out' = length out /\
    forall i l m, nth_error ls i = Some l ->
      velfac (su_line su) * (su_unit su * IZR (step M (l_axis l))) = IZR m * (vbox (su_line su) / INR (su_nbins su)) ->
      forall j, (j < su_nbins su)%nat ->
        nth (i * su_nbins su + image M (su_nbins su) l m j) out' 0 = nth (i * su_nbins su + j) out 0.
Proof. exact C105_column_aux. Qed.
Print Assumptions C105_column.

(** C105: the same for optical depths along unreversed directions, and for Galilean boosts. *)
Theorem C105_depth : forall M pos pos' su ls ls' ranks ranks' gs',
  isometry M -> (0 < su_nbins su)%nat -> su_kern su <> Voronoi -> matched su ->
  Forall (good_line (su_box su)) ls -> Forall (good_line (su_box su)) ls' ->
  ranks_ok pos su ls ranks -> ranks_ok pos' su ls' ranks' ->
  Permutation (all_gas ranks') gs' -> Forall2 (moved M (su_box su)) (all_gas ranks) gs' -> Forall2 (moved_line M (su_box su)) ls ls' ->
  exists out out', compute_spectra Depth pos su ls ranks = Some out /\ compute_spectra Depth pos' su ls' ranks' = Some out' /\
    length out = (length ls * su_nbins su)%nat /\ length out' = length out /\
    forall i l m, nth_error ls i = Some l -> sign M (l_axis l) = 1%Z ->
      velfac (su_line su) * (su_unit su * IZR (step M (l_axis l))) + boost M (l_axis l) = IZR m * (vbox (su_line su) / INR (su_nbins su)) ->
      forall j, (j < su_nbins su)%nat ->
        nth (i * su_nbins su + image M (su_nbins su) l m j) out' 0 = nth (i * su_nbins su + j) out 0.
Proof. exact C105_depth_aux. Qed.
Print Assumptions C105_depth.

(** C105: in a mirror the optical depth of a particle is mirrored, the pixels half the box away excepted. *)
Theorem C105_mirror : forall M su g l g' l' m Z0 a a', isometry M -> no_gain su -> tautail (su_line su) <= 0 -> 0 < su_unit su ->
  (forall u c, su_profile su (- u) c = su_profile su u c) -> su_kern su <> Voronoi -> matched su ->
  good_gas su g -> good_gas su g' -> good_line (su_box su) l -> good_line (su_box su) l' ->
  moved M (su_box su) g g' -> moved_line M (su_box su) l l' -> sign M (l_axis l) = (-1)%Z -> 0 < g_temp g -> 0 <= g_dens g ->
  velfac (su_line su) * (su_unit su * IZR (step M (l_axis l))) + boost M (l_axis l) = IZR m * (vbox (su_line su) / INR (su_nbins su)) ->
  IZR Z0 * (vbox (su_line su) / INR (su_nbins su)) < velfac (su_line su) * (su_unit su * IZR (along l g)) + vel_along l g <
    IZR (Z0 + 1) * (vbox (su_line su) / INR (su_nbins su)) ->
  single Depth su l g a -> single Depth su l' g' a' ->
  forall j, (j < su_nbins su)%nat ->
  Z.of_nat j <> ((Z0 + Z.of_nat (su_nbins su) / 2) mod Z.of_nat (su_nbins su))%Z ->
  Z.of_nat j <> ((Z0 - Z.of_nat (su_nbins su) / 2) mod Z.of_nat (su_nbins su))%Z ->
  nth (image M (su_nbins su) l m j) a' 0 = nth j a 0.
Proof. exact C105_mirror_aux. Qed.
Print Assumptions C105_mirror.

(** C105: the pixel half the box away is not mirrored. *)
Theorem C105_far_side_refuted : exists M su l l' g g' a a', su_profile su = (fun u _ => exp (- (u * u))) /\ isometry M /\ no_gain su /\ tautail (su_line su) = 0 /\
  su_kern su <> Voronoi /\ matched su /\
  good_gas su g /\ good_gas su g' /\ good_line (su_box su) l /\ good_line (su_box su) l' /\ moved M (su_box su) g g' /\ moved_line M (su_box su) l l' /\
  sign M (l_axis l) = (-1)%Z /\
  velfac (su_line su) * (su_unit su * IZR (step M (l_axis l))) + boost M (l_axis l) = IZR 1 * (vbox (su_line su) / INR (su_nbins su)) /\
  single Depth su l g a /\ single Depth su l' g' a' /\ image M (su_nbins su) l 1 1 = 1%nat /\ nth 1 a' 0 < nth 1 a 0.
Proof. exact C105_far_aux. Qed.
Print Assumptions C105_far_side_refuted.

(** C105: a spectrum which is not as long as the box tells apart two descriptions of the same place. *)
Theorem C105_unmatched_refuted : forall profile, exists su l g g' a a',
  su_profile su = profile /\ su_kern su <> Voronoi /\ 0 < velfac (su_line su) /\ 0 < vbox (su_line su) /\
  good_gas su g /\ good_gas su g' /\ good_line (su_box su) l /\ moved still (su_box su) g g' /\
  single Column su l g a /\ single Column su l g' a' /\ nth 1 a 0 = 0 /\ 0 < nth 1 a' 0.
Proof. exact C105_box_aux. Qed.
Print Assumptions C105_unmatched_refuted.

(** C106: only lengths matter, not the unit they are measured in. *)
Theorem C106_unit_of_length : forall qu k pos pos' su ls ranks ranks', (0 < k)%Z ->
  (0 < su_nbins su)%nat -> su_kern su <> Voronoi -> Forall (good_line (su_box su)) ls ->
  ranks_ok pos su ls ranks -> ranks_ok pos' (finer_setup k su) (map (finer_line k) ls) ranks' ->
  Permutation (all_gas ranks') (map (finer k) (all_gas ranks)) ->
  compute_spectra qu pos' (finer_setup k su) (map (finer_line k) ls) ranks' = compute_spectra qu pos su ls ranks.
Proof. exact C106_finer_aux. Qed.
Print Assumptions C106_unit_of_length.

(** C106: spectra are linear in the amounts of gas. *)
Theorem C106_linear : forall qu su ls gs f0 f1 a b pos0 pos1 pos2 ranks0 ranks1 ranks2,
  (0 < su_nbins su)%nat -> su_kern su <> Voronoi -> Forall (good_line (su_box su)) ls ->
  ranks_ok pos0 su ls ranks0 -> ranks_ok pos1 su ls ranks1 -> ranks_ok pos2 su ls ranks2 ->
  Permutation (all_gas ranks0) (map (fun g => with_amount (f0 g) g) gs) ->
  Permutation (all_gas ranks1) (map (fun g => with_amount (f1 g) g) gs) ->
  Permutation (all_gas ranks2) (map (fun g => with_amount (a * f0 g + b * f1 g) g) gs) ->
  (qu = Depth -> no_gain su /\ tautail (su_line su) <= 0 /\ 0 < su_unit su /\
     Forall (fun g => 0 < g_temp g /\ 0 <= f0 g /\ 0 <= f1 g /\ 0 <= a * f0 g + b * f1 g) gs) ->
  exists out0 out1 out2, compute_spectra qu pos0 su ls ranks0 = Some out0 /\ compute_spectra qu pos1 su ls ranks1 = Some out1 /\
    compute_spectra qu pos2 su ls ranks2 = Some out2 /\
    length out0 = (length ls * su_nbins su)%nat /\ length out1 = length out0 /\ length out2 = length out0 /\
    forall p, nth p out2 0 = a * nth p out0 0 + b * nth p out1 0.
Proof. exact C106_additive_aux. Qed.
Print Assumptions C106_linear.

(** C106: more gas never lowers a pixel, with the tail cut at any height. *)
Theorem C106_more_gas : forall qu su ls gs f0 f1 extra pos0 pos1 ranks0 ranks1,
  (0 < su_nbins su)%nat -> su_kern su <> Voronoi -> Forall (good_line (su_box su)) ls -> 0 < su_unit su ->
  ranks_ok pos0 su ls ranks0 -> ranks_ok pos1 su ls ranks1 ->
  Permutation (all_gas ranks0) (map (fun g => with_amount (f0 g) g) gs) ->
  Permutation (all_gas ranks1) (map (fun g => with_amount (f1 g) g) gs ++ extra) ->
  Forall (fun g => 0 <= f0 g <= f1 g) gs -> Forall (fun g => 0 <= g_dens g) extra ->
  (qu = Depth -> no_gain su /\ Forall (fun g => 0 < g_temp g) (gs ++ extra)) ->
  exists out0 out1, compute_spectra qu pos0 su ls ranks0 = Some out0 /\ compute_spectra qu pos1 su ls ranks1 = Some out1 /\
    length out0 = (length ls * su_nbins su)%nat /\ length out1 = length out0 /\
    forall p, 0 <= nth p out0 0 <= nth p out1 0.
Proof. exact C106_more_aux. Qed.
Print Assumptions C106_more_gas.

(** C106: with the tail cut at a positive height the optical depth is not linear. *)
Theorem C106_cut_refuted : forall profile, (forall u a, 0 < profile u a) -> exists su l g a a',
  su_profile su = profile /\ su_kern su <> Voronoi /\ no_gain su /\ 0 < tautail (su_line su) /\ 0 < g_temp g /\
  good_gas su g /\ good_line (su_box su) l /\
  single Depth su l (with_amount 1 g) a /\ single Depth su l (with_amount 2 g) a' /\ nth 1 a 0 = 0 /\ 0 < nth 1 a' 0.
Proof. exact C106_cut_aux. Qed.
Print Assumptions C106_cut_refuted.

(** ** The hypotheses are met *)
Definition sym_setup : setup := mkSetup Cubic (1 / 2) 10 5 (mkAbs 0 1 1 1 2 10) (fun u _ => exp (- (u * u))).
Definition sym_gas : list gas := [mkGas (mkPart 5 1 9 2) (1, 2, 3) 1 4; mkGas (mkPart 9 4 5 2) (0, 0, 0) 3 1].
Definition sym_lines : list sightline := [mkLine 1 0 1 9; mkLine 3 9 5 0].
(** A turn of the axes, a reversal of the second, a displacement and a boost along the first. *)
Definition turn : motion :=
  mkMotion (fun a => pick a 2 3 1)%Z (fun a => pick a 1 (-1) 1)%Z (fun a => pick a 2 1 4)%Z (fun a => pick a 4 0 0).
Definition turned_gas : list gas := [mkGas (mkPart 3 7 0 2) (3, 5, -2) 1 4; mkGas (mkPart 9 1 7 2) (0, 4, 0) 3 1].
Definition turned_lines : list sightline := [mkLine 2 3 2 10; mkLine 1 4 1 6].

Lemma sym_good : Forall (good_line (su_box sym_setup)) sym_lines /\ Forall (good_line (su_box sym_setup)) turned_lines /\
  Forall (good_gas sym_setup) sym_gas /\ Forall (good_gas sym_setup) turned_gas /\ fits sym_setup sym_lines sym_gas /\ fits sym_setup turned_lines turned_gas /\
  Forall (fun g => 0 <= g_dens g) sym_gas /\ Forall (fun g => 0 <= g_dens g) turned_gas.
Proof.
  repeat split; try (simpl; lia); repeat (apply Forall_cons || apply Forall_nil);
    unfold good_line, good_gas, good_particle, inside; cbn; try lia; lra.
Qed.

Example C105_case : isometry turn /\ matched sym_setup /\ no_gain sym_setup /\
  Forall2 (moved turn (su_box sym_setup)) sym_gas turned_gas /\ Forall2 (moved_line turn (su_box sym_setup)) sym_lines turned_lines /\
  (exists r, ranks_ok true sym_setup sym_lines [r] /\ all_gas [r] = sym_gas) /\
  (exists r, ranks_ok true sym_setup turned_lines [r] /\ all_gas [r] = turned_gas) /\
  velfac (su_line sym_setup) * (su_unit sym_setup * IZR (step turn 1)) = IZR 1 * (vbox (su_line sym_setup) / INR (su_nbins sym_setup)) /\
  velfac (su_line sym_setup) * (su_unit sym_setup * IZR (step turn 1)) + boost turn 1 = IZR 3 * (vbox (su_line sym_setup) / INR (su_nbins sym_setup)) /\
  map (image turn 5 (mkLine 1 0 1 9) 1) (seq 0 5) = [1; 2; 3; 4; 0]%nat /\ map (image turn 5 (mkLine 2 0 1 9) 1) (seq 0 5) = [0; 4; 3; 2; 1]%nat.
Proof.
  destruct sym_good as (L & L' & G & G' & F & F' & D & D').
  split.
  { split.
    - intros a [-> | [-> | ->]]; cbn; unfold axis_number; lia.
    - intros a b [-> | [-> | ->]] [-> | [-> | ->]]; cbn; lia. }
  split; [unfold matched; cbn; lra|].
  split; [split; [intros; left; apply exp_pos|cbn; lra]|].
  split.
  { constructor; [|constructor; [|constructor]]; (do 3 (split; [reflexivity|])); intros a [-> | [-> | ->]]; (split; [|cbn; ring]).
    - exists 0%Z. reflexivity.
    - exists 0%Z. reflexivity.
    - exists (-1)%Z. reflexivity.
    - exists (-1)%Z. reflexivity.
    - exists 1%Z. reflexivity.
    - exists 0%Z. reflexivity. }
  split.
  { constructor; [|constructor; [|constructor]]; (split; [reflexivity|]); intros a [-> | [-> | ->]]; cbn.
    - exists 0%Z. reflexivity.
    - exists 1%Z. reflexivity.
    - exists (-1)%Z. reflexivity.
    - exists (-1)%Z. reflexivity.
    - exists 1%Z. reflexivity.
    - exists 0%Z. reflexivity. }
  split; [apply run_exists; auto|]. split; [apply run_exists; auto|].
  split; [cbn; lra|]. split; [cbn; lra|]. split; reflexivity.
Qed.

(** Nothing but the conditions on the particles is needed for a run to exist. *)
Example C106_runs : forall pos su ls gs, Forall (good_line (su_box su)) ls -> Forall (good_gas su) gs -> fits su ls gs ->
  (pos = true -> Forall (fun g => 0 <= g_dens g) gs) -> exists r, ranks_ok pos su ls [r] /\ all_gas [r] = gs.
Proof. exact run_exists. Qed.

Example C106_case : no_gain sym_setup /\ tautail (su_line sym_setup) <= 0 /\ 0 < su_unit sym_setup /\ su_kern sym_setup <> Voronoi /\
  Forall (fun g => 0 < g_temp g /\ 0 <= 2 * g_dens g /\ 0 <= 1) sym_gas /\
  (exists r, ranks_ok true sym_setup sym_lines [r] /\ all_gas [r] = map (fun g => with_amount (2 * g_dens g) g) sym_gas) /\
  (exists r, ranks_ok true (finer_setup 3 sym_setup) (map (finer_line 3) sym_lines) [r] /\ all_gas [r] = map (finer 3) sym_gas).
Proof.
  destruct sym_good as (L & L' & G & G' & F & F' & D & D').
  split; [split; [intros; left; apply exp_pos|cbn; lra]|]. split; [cbn; lra|]. split; [cbn; lra|]. split; [discriminate|].
  split; [repeat constructor; cbn; lra|]. split.
  - apply run_exists; [assumption| |unfold fits; cbn; lia|intros _; repeat constructor; cbn; lra].
    repeat (apply Forall_cons || apply Forall_nil); unfold good_gas, good_particle, inside; cbn; lia.
  - apply run_exists; [| |unfold fits; cbn; lia|intros _; repeat constructor; cbn; lra];
      repeat (apply Forall_cons || apply Forall_nil); unfold good_line, good_gas, good_particle, inside; cbn; lia.
Qed.
