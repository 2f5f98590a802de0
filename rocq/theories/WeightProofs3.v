(** Cases in which the density weighted average is not the mean. *)
From Coq Require Import ZArith List Reals Bool Lra Lia Permutation.
From Verif Require Import Containers IndexModel IndexSpec IndexProofs AbsorptionModel AbsorptionSpec AbsorptionProofs
  VoronoiModel PipelineModel PipelineSpec PipelineProofs WeightModel WeightSpec WeightProofs WeightProofs2.
Import ListNotations.
Local Open Scope R_scope.

(** ** Where the average fails *)

Lemma C68_bigfile_aux : forall atime phys sp rs pos su ls mine ranks,
  get_temp BigFile phys pos su ls mine ranks = MissingArgument /\
  get_velocity BigFile atime phys pos su ls mine ranks = MissingArgument /\
  get_dens_weighted_density BigFile sp rs phys pos su ls mine ranks = MissingArgument.
Proof. intros. split; [|split]; reflexivity. Qed.

Lemma C68_voronoi_refuted_aux : forall profile, exists su ls (g : gas) s s',
  su_kern su = Voronoi /\ su_profile su = profile /\ good_gas su g /\ Forall (good_line (su_box su)) ls /\
  s = ([g], ([0%nat], ([0%nat], [0%nat]))) /\ segment_ok false su ls s /\ s' = ([g], ([0%nat], (seq 0 2, [0%nat]))) /\ g_temp g = 1 /\ 0 < g_dens g /\
  get_temp HDF5 1 false su ls (s, []) [(s, [])] = Done [1] /\
  get_temp HDF5 1 false su ls (s, [s]) [(s', [s])] = Done [2].
Proof.
  intros profile. exists (vor_setup profile), [vor_line], vor_gas, ([vor_gas], ([0%nat], ([0%nat], [0%nat]))), ([vor_gas], ([0%nat], (seq 0 2, [0%nat]))).
  assert (Rd : read_particles false (vor_setup profile) [vor_line] [vor_gas] [0%nat] = Some [vor_gas]) by reflexivity.
  assert (Gg : good_gas (vor_setup profile) vor_gas) by (unfold good_gas, good_particle, inside; cbn; lia).
  split; [reflexivity|]. split; [reflexivity|]. split; [exact Gg|].
  split. { constructor; [|constructor]. unfold good_line, inside; cbn; lia. }
  split; [reflexivity|]. split.
  { split; [constructor; [exact Gg|constructor]|]. split; [unfold fits; cbn; lia|]. split; [discriminate|].
    split; [apply Permutation_refl|]. split; [|apply Permutation_refl].
    intros kept E. cbn [fst snd] in E. rewrite Rd in E. injection E as <-. apply Permutation_refl. }
  split; [reflexivity|]. split; [reflexivity|]. split; [cbn [g_dens vor_gas]; lra|].
  assert (W : weight_segment (times g_temp 1) false (vor_setup profile) [vor_line] ([vor_gas], ([0%nat], ([0%nat], [0%nat]))) = Done [10]).
  { unfold weight_segment. cbn [fst snd]. rewrite Rd. unfold times. cbn [map].
    replace (with_dens vor_gas (g_dens vor_gas * g_temp vor_gas / 1)) with vor_gas.
    - change [vor_gas] with (repeat vor_gas 1) at 1. change [0%nat] with (seq 0 1) at 1.
      rewrite (vor_interpolate profile 0 ltac:(lia)). reflexivity.
    - unfold with_dens, vor_gas. cbn [g_dens g_temp g_part g_vel]. f_equal. field. }
  split.
  - unfold get_temp, mass_weight, numerator. cbn [fst snd fold_left]. rewrite W.
    unfold get_density. cbn [fold_left]. unfold colden_rank. cbn [su_kern vor_setup]. fold (vor_setup profile).
    assert (Ld : interpolate_loaded Column false (vor_setup profile) [vor_line] [([vor_gas], [0%nat])] [0%nat] [0%nat] = Some [10]).
    { exact (vor_interpolate profile 0 ltac:(lia)). }
    cbn [map fst snd]. rewrite Ld. cbn [option_map length su_nbins vor_setup Nat.mul Nat.add repeat add_arrays map divide].
    unfold divisor. destruct (Req_EM_T ((0 + 10) / 1) 0); [lra|]. do 2 f_equal. field.
  - unfold get_temp, mass_weight, numerator. cbn [fst snd fold_left]. rewrite W.
    unfold get_density. cbn [fold_left]. unfold colden_rank. cbn [su_kern vor_setup]. fold (vor_setup profile).
    assert (Ld : interpolate_loaded Column false (vor_setup profile) [vor_line] [([vor_gas], [0%nat]); ([vor_gas], [0%nat])] (seq 0 2) [0%nat] = Some [10]).
    { exact (vor_interpolate profile 1 ltac:(lia)). }
    cbn [map fst snd]. rewrite Ld. cbn [option_map length su_nbins vor_setup Nat.mul Nat.add repeat add_arrays map divide].
    unfold divisor. destruct (Req_EM_T ((0 + 10) / 1) 0); [lra|]. do 2 f_equal. field.
Qed.

(** One particle well inside the first of two or three pixels. *)
Definition wt_setup (profile : R -> R -> R) (n : nat) : setup := mkSetup TopHat 1 30 n (mkAbs 0 1 1 1 1 30) profile.
Definition wt_gas : gas := mkGas (mkPart 5 5 5 2) (1, 1, 1) 1 1.
Definition wt_line : sightline := mkLine 1 0 5 5.
Definition wt_seg : segment := ([wt_gas], ([0%nat], ([0%nat], [0%nat]))).

Lemma wt_good : forall profile n, good_gas (wt_setup profile n) wt_gas.
Proof. intros. unfold good_gas, good_particle, inside; cbn; lia. Qed.
Lemma wt_good_line : forall profile n, good_line (su_box (wt_setup profile n)) wt_line.
Proof. intros. unfold good_line, inside; cbn; lia. Qed.

Lemma wt_distance : forall profile n, transverse_distance2 (su_box (wt_setup profile n)) (g_part wt_gas) wt_line 0.
Proof.
  intros profile n. exists 0%Z, 0%Z. split; [reflexivity|]. left. cbn.
  split; [reflexivity|]. split; (split; [exists 0%Z; reflexivity|intros k; lia]).
Qed.

(** The whole particle is in the first pixel. *)
Lemma wt_px : forall profile n, (n = 2 \/ n = 3)%nat ->
  px Column (wt_setup profile n) wt_line 0 wt_gas = 3 / PI /\
  forall j, (0 < j < n)%nat -> px Column (wt_setup profile n) wt_line j wt_gas = 0.
Proof.
  intros profile n Hn. assert (Hp : (0 < n)%nat) by lia.
  destruct (single_true Column (wt_setup profile n) wt_line wt_gas Hp (wt_good profile n) (wt_good_line profile n)) as (arr & Sa & La & Na).
  destruct Sa as (d2 & Hd & E). rewrite (transverse_unique _ _ _ _ _ Hd (wt_distance profile n)) in E.
  cbv zeta in E. cbn [su_kern su_line su_nbins su_unit wt_setup vbox velfac g_dens wt_gas g_part p_h] in E.
  change (along wt_line wt_gas) with 5%Z in E.
  cbn [su_nbins wt_setup] in La.
  set (colden := repeat 0 n) in *.
  assert (Lc : length colden = n) by apply repeat_length.
  assert (Dr : 1 * 1 * IZR 0 < 1 * IZR 2 * (1 * IZR 2)) by (cbn; lra).
  assert (Sq : sqrt (1 * IZR 2 * (1 * IZR 2) - 1 * 1 * IZR 0) = 2).
  { replace (1 * IZR 2 * (1 * IZR 2) - 1 * 1 * IZR 0) with (2 * 2) by ring. apply sqrt_square. lra. }
  assert (Rest : forall j, (0 < j < n)%nat -> nth j arr 0 = 0).
  { intros j Hj. rewrite (C08_no_overlap_aux TopHat 30 1 n (1 * 1 * IZR 0) 1 (1 * IZR 5) (1 * IZR 2) colden arr) with (j := j); try lra; try lia; try assumption.
    - unfold colden. apply nth_repeat0.
    - cbn [centre half_extent]. rewrite Sq. intros (x & m & Hx & Hm).
      assert (IZR (Z.of_nat j + m * Z.of_nat n) * (30 / 1 / INR n) < 7) by lra.
      assert (3 < IZR (Z.of_nat j + m * Z.of_nat n + 1) * (30 / 1 / INR n)) by lra.
      assert (W : 10 <= 30 / 1 / INR n <= 15) by (destruct Hn as [-> | ->]; cbn [INR]; lra).
      assert (A : (Z.of_nat j + m * Z.of_nat n < 1)%Z).
      { apply lt_IZR. destruct (Rlt_dec (IZR (Z.of_nat j + m * Z.of_nat n)) 1) as [|Nl]; [assumption|]. nra. }
      assert (B : (-1 < Z.of_nat j + m * Z.of_nat n)%Z).
      { apply lt_IZR. rewrite plus_IZR in *. destruct (Rlt_dec (-1) (IZR (Z.of_nat j) + IZR (m * Z.of_nat n))) as [|Nl]; [assumption|].
        rewrite plus_IZR in H0. nra. }
      assert (m < 0 \/ 0 <= m)%Z as [M|M] by lia; nia. }
  assert (Tot : rsum arr = 3 / PI).
  { destruct (C07_tophat_aux 30 1 n (1 * 1 * IZR 0) 1 (1 * IZR 5) (1 * IZR 2) colden) as (arr' & E' & T); try lra; try lia; try assumption.
    rewrite E in E'. injection E' as <-. rewrite T, Sq.
    replace (rsum colden) with 0 by (symmetry; apply rsum_zero; intros x Hx; apply repeat_spec in Hx; exact Hx).
    field. apply PI_neq0. }
  split.
  - unfold px. rewrite <- Na. destruct arr as [|a arr]; [cbn in La; lia|]. unfold rsum in Tot. cbn [fold_right nth] in *.
    fold (rsum arr) in Tot. assert (Z0 : rsum arr = 0); [|lra]. apply rsum_zero. intros x Hx. apply In_nth with (d := 0) in Hx.
    destruct Hx as (k & Hk & <-). apply (Rest (S k)). cbn [length] in La. lia.
  - intros j Hj. unfold px. rewrite <- Na. apply Rest. exact Hj.
Qed.

Lemma wt_ok : forall profile n, (n = 2 \/ n = 3)%nat -> rank_ok false (wt_setup profile n) [wt_line] (wt_seg, []).
Proof.
  intros profile n Hn. split; [|constructor]. cbn [fst].
  split; [constructor; [apply wt_good|constructor]|]. split; [unfold fits; destruct Hn as [-> | ->]; cbn; lia|].
  split; [discriminate|]. split; [apply Permutation_refl|]. split; [|apply Permutation_refl].
  intros kept E. cbn [fst snd wt_seg] in E.
  assert (Rd : read_particles false (wt_setup profile n) [wt_line] [wt_gas] [0%nat] = Some [wt_gas]) by reflexivity.
  rewrite Rd in E. injection E as <-. apply Permutation_refl.
Qed.

Lemma wt_dens : Forall (fun g => 0 <= g_dens g) [wt_gas].
Proof. constructor; [cbn; lra|constructor]. Qed.

Lemma inv_pi_pos : 0 < 3 / PI.
Proof. apply Rdiv_lt_0_compat; [lra|apply PI_RGT_0]. Qed.

Lemma C68_velocity_refuted_aux : forall profile atime, exists su ls s g,
  su_kern su = TopHat /\ su_profile su = profile /\ rank_ok false su ls (s, []) /\ Forall (good_line (su_box su)) ls /\
  fst s = [g] /\ g_vel g = (1, 1, 1) /\ 0 < g_dens g /\
  exists v, get_velocity HDF5 atime 1 false su ls (s, []) [(s, [])] = Done v /\
    v 0%nat 0%nat 0%nat = sqrt atime /\ v 0%nat 0%nat 1%nat = sqrt atime /\ v 0%nat 0%nat 2%nat = sqrt atime.
Proof.
  intros profile atime. exists (wt_setup profile 2), [wt_line], wt_seg, wt_gas.
  assert (Hl : Forall (good_line (su_box (wt_setup profile 2))) [wt_line]) by (constructor; [apply (wt_good_line profile 2)|constructor]).
  assert (Ok := wt_ok profile 2 (or_introl eq_refl)).
  split; [reflexivity|]. split; [reflexivity|]. split; [exact Ok|]. split; [exact Hl|].
  split; [reflexivity|]. split; [reflexivity|]. split; [cbn; lra|].
  assert (K : su_kern (wt_setup profile 2) <> Voronoi) by discriminate.
  assert (U : 0 < su_unit (wt_setup profile 2)) by (cbn; lra).
  assert (N : (0 < su_nbins (wt_setup profile 2))%nat) by (cbn; lia).
  destruct (C68_velocity_aux atime 1 false (wt_setup profile 2) [wt_line] (wt_seg, []) [(wt_seg, [])] []) as (v & E & V); try assumption.
  { constructor; [exact Ok|constructor]. } { rewrite app_nil_r. apply Permutation_refl. } { exact wt_dens. } { cbn. lia. }
  exists v. split; [exact E|].
  destruct (V 0%nat wt_line 0%nat eq_refl ltac:(cbn; lia)) as (V0 & V1 & V2).
  change (all_gas [(wt_seg, [])]) with [wt_gas] in *.
  assert (Fin : forall w x, w wt_gas = sqrt atime -> share (wt_setup profile 2) wt_line 0 w [wt_gas] [wt_gas] x -> x = sqrt atime).
  { intros w x Hw Sh. destruct (share_range (wt_setup profile 2) wt_line 0 w (sqrt atime) (sqrt atime) [wt_gas] x) as [Rg|[_ P0]]; try assumption.
    - apply wt_good_line. - constructor; [apply wt_good|constructor]. - exact wt_dens.
    - constructor; [rewrite Hw; lra|constructor]. - lra.
    - apply pixel_sum_px in P0; [|exact N|constructor; [apply wt_good|constructor]|apply wt_good_line].
      destruct (wt_px profile 2 (or_introl eq_refl)) as [Px _]. cbn [map] in P0. rewrite Px in P0. unfold rsum in P0. cbn [fold_right] in P0.
      assert (Q := inv_pi_pos). lra. }
  split; [|split]; eapply Fin; try eassumption; cbn; ring.
Qed.

Lemma C68_ranks_refuted_aux : forall profile, exists su ls s g,
  su_kern su = TopHat /\ su_profile su = profile /\ rank_ok false su ls (s, []) /\ Forall (good_line (su_box su)) ls /\
  fst s = [g] /\ g_temp g = 1 /\ 0 < g_dens g /\
  exists one two, get_temp HDF5 1 false su ls (s, []) [(s, [])] = Done one /\
    get_temp HDF5 1 false su ls (s, []) [(s, []); (s, [])] = Done two /\ nth 0 one 0 = 1 /\ nth 0 two 0 = 1 / 2.
Proof.
  intros profile. exists (wt_setup profile 2), [wt_line], wt_seg, wt_gas.
  assert (Hl : Forall (good_line (su_box (wt_setup profile 2))) [wt_line]) by (constructor; [apply (wt_good_line profile 2)|constructor]).
  assert (Ok := wt_ok profile 2 (or_introl eq_refl)).
  split; [reflexivity|]. split; [reflexivity|]. split; [exact Ok|]. split; [exact Hl|].
  split; [reflexivity|]. split; [reflexivity|]. split; [cbn; lra|].
  assert (K : su_kern (wt_setup profile 2) <> Voronoi) by discriminate.
  assert (U : 0 < su_unit (wt_setup profile 2)) by (cbn; lra).
  assert (N : (0 < su_nbins (wt_setup profile 2))%nat) by (cbn; lia).
  destruct (wt_px profile 2 (or_introl eq_refl)) as [Px _]. assert (Q := inv_pi_pos).
  assert (Gl : good_line (su_box (wt_setup profile 2)) wt_line) by apply wt_good_line.
  assert (Gg : good_gas (wt_setup profile 2) wt_gas) by apply wt_good.
  assert (Gc : Forall (good_gas (wt_setup profile 2)) (carrying g_temp [wt_gas])) by (constructor; [exact Gg|constructor]).
  assert (Num : forall num, pixel_sum Column (wt_setup profile 2) wt_line 0 (carrying g_temp [wt_gas]) num -> num = 3 / PI).
  { intros num P. apply pixel_sum_px in P; [|assumption..]. unfold carrying in P. cbn [map] in P.
    replace (mkGas (g_part wt_gas) (g_vel wt_gas) (g_dens wt_gas * g_temp wt_gas) (g_temp wt_gas)) with wt_gas in P
      by (unfold wt_gas; cbn [g_part g_vel g_dens g_temp]; f_equal; ring).
    rewrite Px in P. unfold rsum in P. cbn [fold_right] in P. lra. }
  destruct (C68_temp_aux 1 false (wt_setup profile 2) [wt_line] (wt_seg, []) [(wt_seg, [])] []) as (one & E1 & _ & V1); try assumption.
  { constructor; [exact Ok|constructor]. } { rewrite app_nil_r. apply Permutation_refl. } { exact wt_dens. }
  destruct (C68_temp_aux 1 false (wt_setup profile 2) [wt_line] (wt_seg, []) [(wt_seg, []); (wt_seg, [])] [wt_gas]) as (two & E2 & _ & V2); try assumption.
  { constructor; [exact Ok|constructor; [exact Ok|constructor]]. } { apply Permutation_refl. }
  { constructor; [cbn; lra|exact wt_dens]. }
  exists one, two. split; [exact E1|]. split; [exact E2|].
  destruct (V1 0%nat wt_line 0%nat eq_refl ltac:(cbn; lia)) as (n1 & d1 & A1 & B1 & _ & C1 & _).
  destruct (V2 0%nat wt_line 0%nat eq_refl ltac:(cbn; lia)) as (n2 & d2 & A2 & B2 & _ & C2 & _).
  change (all_gas [(wt_seg, [])]) with [wt_gas] in *. change (all_gas [(wt_seg, []); (wt_seg, [])]) with [wt_gas; wt_gas] in *.
  apply Num in A1, A2.
  apply pixel_sum_px in B1; [|assumption|constructor; [exact Gg|constructor]|assumption].
  apply pixel_sum_px in B2; [|assumption|constructor; [exact Gg|constructor; [exact Gg|constructor]]|assumption].
  cbn [map] in B1, B2. rewrite Px in B1, B2. unfold rsum in B1, B2. cbn [fold_right] in B1, B2.
  cbn [su_nbins wt_setup Nat.mul Nat.add] in C1, C2.
  split.
  - apply Rmult_eq_reg_r with d1; [|lra]. rewrite C1 by lra. lra.
  - apply Rmult_eq_reg_r with d2; [|lra]. rewrite C2 by lra. lra.
Qed.

Lemma C68_three_refuted_aux : forall profile, exists su ls s g,
  su_kern su = TopHat /\ su_profile su = profile /\ su_nbins su = 3%nat /\ rank_ok false su ls (s, []) /\ Forall (good_line (su_box su)) ls /\
  fst s = [g] /\ g_vel g = (1, 1, 1) /\ 0 < g_dens g /\
  exists v, get_velocity HDF5 1 1 false su ls (s, []) [(s, [])] = Done v /\
    v 0%nat 0%nat 0%nat = 1 /\ v 0%nat 0%nat 1%nat = 3 / PI /\ v 0%nat 0%nat 2%nat = 3 / PI.
Proof.
  intros profile. exists (wt_setup profile 3), [wt_line], wt_seg, wt_gas.
  assert (Hl : Forall (good_line (su_box (wt_setup profile 3))) [wt_line]) by (constructor; [apply (wt_good_line profile 3)|constructor]).
  assert (Ok := wt_ok profile 3 (or_intror eq_refl)).
  split; [reflexivity|]. split; [reflexivity|]. split; [reflexivity|]. split; [exact Ok|]. split; [exact Hl|].
  split; [reflexivity|]. split; [reflexivity|]. split; [cbn; lra|].
  assert (K : su_kern (wt_setup profile 3) <> Voronoi) by discriminate.
  assert (N : (0 < su_nbins (wt_setup profile 3))%nat) by (cbn; lia).
  destruct (wt_px profile 3 (or_intror eq_refl)) as [P0 Pj]. assert (Q := inv_pi_pos).
  assert (G : forall ax, gives (wt_setup profile 3) [wt_line] (weight_segment (times (vel_weight 1 ax) 1) false (wt_setup profile 3) [wt_line] wt_seg)
     (fun l j => px Column (wt_setup profile 3) l j wt_gas)).
  { intros ax. eapply gives_ext; [|apply times_gives; try assumption; apply Ok]. intros l j _. cbv beta.
    unfold sum_of. cbn [fst wt_seg map]. unfold rsum. cbn [fold_right]. rewrite px_dens.
    replace (vel_weight 1 ax wt_gas) with 1; [field|]. unfold vel_weight, component. cbn [g_vel wt_gas]. rewrite sqrt_1.
    destruct ax as [|[|ax]]; ring. }
  destruct (G 0%nat) as (n0 & E0 & _ & V0). destruct (G 1%nat) as (n1 & E1 & _ & V1). destruct (G 2%nat) as (n2 & E2 & _ & V2).
  destruct (density_gives 1 false (wt_setup profile 3) [wt_line] [(wt_seg, [])] N K Hl) as (den & Ed & _ & Vd).
  { constructor; [exact Ok|constructor]. }
  eexists. split.
  - unfold get_velocity. cbv zeta. unfold numerator. cbn [fst snd fold_left]. rewrite E0, E1, E2, Ed. reflexivity.
  - cbv beta iota.
    assert (D0 := Vd 0%nat wt_line 0%nat eq_refl ltac:(cbn; lia)).
    assert (D1 := Vd 0%nat wt_line 1%nat eq_refl ltac:(cbn; lia)).
    assert (D2 := Vd 0%nat wt_line 2%nat eq_refl ltac:(cbn; lia)).
    change (all_gas [(wt_seg, [])]) with [wt_gas] in *. cbn [map] in D0, D1, D2.
    rewrite P0 in D0. rewrite Pj in D1, D2 by lia. unfold rsum in D0, D1, D2. cbn [fold_right] in D0, D1, D2.
    change (0 * su_nbins (wt_setup profile 3) + 0)%nat with 0%nat in *.
    change (0 * su_nbins (wt_setup profile 3) + 1)%nat with 1%nat in *.
    change (0 * su_nbins (wt_setup profile 3) + 2)%nat with 2%nat in *.
    assert (A0 := V0 0%nat wt_line 0%nat eq_refl ltac:(cbn; lia)). assert (A1 := V1 0%nat wt_line 0%nat eq_refl ltac:(cbn; lia)).
    assert (A2 := V2 0%nat wt_line 0%nat eq_refl ltac:(cbn; lia)).
    change (0 * su_nbins (wt_setup profile 3) + 0)%nat with 0%nat in *. rewrite A0, A1, A2, P0.
    change (den_at (length [wt_line]) (su_nbins (wt_setup profile 3)) den 0 0 0) with (nth 0 den 0).
    change (den_at (length [wt_line]) (su_nbins (wt_setup profile 3)) den 0 0 1) with (nth 1 den 0).
    change (den_at (length [wt_line]) (su_nbins (wt_setup profile 3)) den 0 0 2) with (nth 2 den 0).
    rewrite D0, D1, D2. unfold divisor.
    destruct (Req_EM_T ((3 / PI + 0) / 1) 0); [lra|]. destruct (Req_EM_T ((0 + 0) / 1) 0); [|lra].
    replace ((3 / PI + 0) / 1) with (3 / PI) by (field; apply PI_neq0).
    split; [field; apply PI_neq0|]. split; field; apply PI_neq0.
Qed.
