(** The cases outside the guards. *)
From Coq Require Import ZArith List Reals Lra Lia Permutation Psatz.
From Verif Require Import Containers IndexModel IndexSpec IndexProofs AbsorptionModel AbsorptionSpec AbsorptionProofs KernelProofs TauProofs
  PipelineModel PipelineSpec PipelineProofs SymmetrySpec SymmetryProofs SymmetryProofs2 SymmetryProofs3 SymmetryProofs4.
From Flocq Require Import Core.Raux.
Import ListNotations.
Local Open Scope R_scope.

(** ** A spectrum longer than the box *)
Definition still : motion := mkMotion (fun a => a) (fun _ => 1%Z) (fun _ => 0%Z) (fun _ => 0).
Lemma still_isometry : isometry still.
Proof. split; [intros a Ha; split; [exact Ha|left; reflexivity]|auto]. Qed.

Lemma still_line : forall box l, moved_line still box l l.
Proof. intros. split; [reflexivity|]. intros a _. exists 0%Z. cbn [still axes sign step]. ring. Qed.

Lemma Rdiv_1 : forall x, x / 1 = x.
Proof. intros. field. Qed.

Lemma C105_box_aux : forall profile, exists su l g g' a a',
  su_profile su = profile /\ su_kern su <> Voronoi /\ 0 < velfac (su_line su) /\ 0 < vbox (su_line su) /\
  good_gas su g /\ good_gas su g' /\ good_line (su_box su) l /\ moved still (su_box su) g g' /\
  single Column su l g a /\ single Column su l g' a' /\ nth 1 a 0 = 0 /\ 0 < nth 1 a' 0.
Proof.
  intros profile. set (su := mkSetup TopHat 1 4 3 (mkAbs 0 1 1 0 1 3) profile).
  set (l := mkLine 1 0 0 0). set (g := mkGas (mkPart 0 0 0 1) (0, 0, 0) 1 1). set (g' := mkGas (mkPart 4 0 0 1) (0, 0, 0) 1 1).
  assert (G : good_gas su g) by (unfold good_gas, good_particle, inside; cbn; lia).
  assert (G' : good_gas su g') by (unfold good_gas, good_particle, inside; cbn; lia).
  assert (Hl : good_line (su_box su) l) by (unfold good_line, inside; cbn; lia).
  destruct (single_true Column su l g ltac:(cbn; lia) G Hl) as (a & Sa & _ & Na).
  destruct (single_true Column su l g' ltac:(cbn; lia) G' Hl) as (a' & Sa' & _ & Na').
  exists su, l, g, g', a, a'. split; [reflexivity|]. split; [discriminate|]. split; [cbn; lra|]. split; [cbn; lra|].
  split; [exact G|]. split; [exact G'|]. split; [exact Hl|].
  split.
  { split; [reflexivity|]. split; [reflexivity|]. split; [reflexivity|]. intros b _. cbn [still axes sign step boost]. split.
    - unfold place, pick. cbn. destruct (b =? 1)%Z; [exists 1%Z; reflexivity|]. destruct (b =? 2)%Z; exists 0%Z; reflexivity.
    - unfold speed, pick. cbn. destruct (b =? 1)%Z; [ring|]. destruct (b =? 2)%Z; ring. }
  split; [exact Sa|]. split; [exact Sa'|]. rewrite Na, Na'.
  assert (D : d2_of su l g = 0%Z) by (vm_compute; reflexivity). assert (D' : d2_of su l g' = 0%Z) by (vm_compute; reflexivity).
  assert (W : 3 / IZR 3 / 1 = 1) by field.
  assert (Ev : forall pos, rsum (at_cell 1 (colden_events TopHat 3 1 3 0 1 pos 1)) =
     rsum (map (fun z => if (wrap_index z 3 =? 1)%Z then 3 / 4 / PI * Rmax 0 (Rmin (IZR z - pos + 1) 1 - Rmax (IZR z - pos) (- 1)) else 0)
       (zrange_up (Zfloor (pos - 1)) (Z.to_nat (Zceil (pos + 1) - Zfloor (pos - 1) + 1))))).
  { intros pos. unfold colden_events, skips. destruct (Rle_dec (1 * 1 - 0) 0); [lra|]. cbv zeta.
    replace (sqrt (1 * 1 - 0)) with 1 by (replace (1 * 1 - 0) with 1 by ring; symmetry; apply sqrt_1).
    rewrite W, at_cell_map, !Rdiv_1. f_equal. apply map_ext. intros z.
    destruct (_ =? _)%Z; [|reflexivity]. cbn [kern_frac]. unfold tophat_kern_frac. rewrite !Rmult_1_l. reflexivity. }
  assert (X : forall q : gas, d2_of su l q = 0%Z -> p_h (g_part q) = 1%Z -> g_dens q = 1 ->
     true_events Column su l q = colden_events TopHat 3 1 3 0 1 (IZR (p_x (g_part q))) 1).
  { intros q Dq Hq Eq. unfold true_events, particle_events. rewrite Dq, Hq, Eq. cbn [su su_unit su_kern su_line su_nbins vbox velfac].
    unfold along. cbn [l l_axis Z.eqb Pos.eqb]. change (Z.of_nat 3) with 3%Z. f_equal; ring. }
  change (Z.of_nat 1) with 1%Z. rewrite (X g D eq_refl eq_refl), (X g' D' eq_refl eq_refl), !Ev. cbn [g g' g_part p_x].
  assert (F : forall x : Z, Zfloor (IZR x - 1) = (x - 1)%Z /\ Zceil (IZR x + 1) = (x + 1)%Z).
  { intros x. rewrite <- (minus_IZR x 1), <- (plus_IZR x 1), Zfloor_IZR, Zceil_IZR. auto. }
  rewrite !(proj1 (F _)), !(proj2 (F _)).
  change (zrange_up (0 - 1) (Z.to_nat (0 + 1 - (0 - 1) + 1))) with [(-1)%Z; 0%Z; 1%Z].
  change (zrange_up (4 - 1) (Z.to_nat (4 + 1 - (4 - 1) + 1))) with [3%Z; 4%Z; 5%Z].
  unfold rsum. cbn [map fold_right].
  change (wrap_index (-1) 3 =? 1)%Z with false. change (wrap_index 0 3 =? 1)%Z with false. change (wrap_index 1 3 =? 1)%Z with true.
  change (wrap_index 3 3 =? 1)%Z with false. change (wrap_index 4 3 =? 1)%Z with true. change (wrap_index 5 3 =? 1)%Z with false. cbv iota.
  split.
  - replace (Rmin (1 - 0 + 1) 1) with 1 by (rewrite Rmin_right; lra). replace (Rmax (1 - 0) (- 1)) with 1 by (rewrite Rmax_left; lra).
    rewrite Rmax_left by lra. ring.
  - replace (Rmin (4 - 4 + 1) 1) with 1 by (rewrite Rmin_right; lra). replace (Rmax (4 - 4) (- 1)) with 0 by (rewrite Rmax_left; lra).
    rewrite Rmax_right by lra. pose proof PI_RGT_0.
    assert (0 < 3 / 4 / PI) by (apply Rdiv_lt_0_compat; lra). lra.
Qed.

(** ** A tail that is cut off *)
Lemma mix_pos : forall (f : R -> R) offs, (forall x, 0 < f x) -> (forall o c, In (o, c) offs -> 0 <= c) ->
  rsum (map snd offs) = 0 \/ 0 < rsum (map (fun oc : R * R => snd oc * f (fst oc)) offs).
Proof.
  intros f offs Hf. induction offs as [|(o, c) offs IH]; intros Hc; [left; reflexivity|].
  unfold rsum in *. cbn [map fold_right fst snd]. assert (H0 : 0 <= c) by (apply (Hc o); left; reflexivity).
  assert (N : 0 <= fold_right Rplus 0 (map (fun oc : R * R => snd oc * f (fst oc)) offs)).
  { apply (rsum_nonneg). intros x Hx. apply in_map_iff in Hx. destruct Hx as ((o1, c1) & <- & Hi). cbn [fst snd].
    apply Rmult_le_pos; [apply (Hc o1); right; exact Hi|left; apply Hf]. }
  assert (P : 0 < f o) by apply Hf.
  destruct (Rle_lt_or_eq_dec _ _ H0) as [Hp | <-].
  - right. assert (0 < c * f o) by (apply Rmult_lt_0_compat; assumption). lra.
  - destruct IH as [IH|IH]; [intros; apply (Hc o0); right; assumption|left; lra|right; lra].
Qed.

Lemma outer_strict : forall profile k b d h aa vlow w, 0 < b -> 0 < w ->
  (forall v, 0 < tau_kern_inner profile k b d h aa v) -> 0 < tau_kern_outer profile k b d h aa vlow (vlow + w).
Proof.
  intros profile k b d h aa vlow w Hb Hw H.
  destruct (outer_mean profile k b d h aa Hb w Hw) as (offs & Ho & S1 & E).
  change (tau_kern_outer profile k b d h aa vlow (vlow + w)) with (outer_w profile k b d h aa vlow w). rewrite E. clear E.
  destruct (mix_pos (fun o => tau_kern_inner profile k b d h aa (vlow + o)) offs) as [X|X]; [intros; apply H|intros o c Hi; apply (Ho o c Hi)| |exact X].
  lra.
Qed.

Lemma tophat_inner : forall profile b h aa v, 0 < h ->
  tau_kern_inner profile TopHat b 0 h aa v = 2 * h / 8 * (3 / 4 / PI) *
    rsum (map (fun i => profile ((INR i * (2 * h / 8) - h - v) / b) aa) (seq 1 7)).
Proof.
  intros profile b h aa v Hh. rewrite inner_sum. cbn [m_vhigh tau_weight].
  destruct (Rlt_dec 0 (h * h)) as [_|N]; [|exfalso; apply N; nra].
  rewrite Rminus_0_r, sqrt_square by lra. cbv zeta. unfold rsum. cbn [seq map fold_right]. ring.
Qed.

Definition cut_setup (profile : R -> R -> R) (t : R) : setup := mkSetup TopHat 1 4 4 (mkAbs t 1 1 0 1 4) profile.
Definition cut_line : sightline := mkLine 1 0 0 0.
Definition cut_gas : gas := mkGas (mkPart 0 0 0 1) (1 / 2, 0, 0) 1 1.

Lemma cut_unit_pos : forall profile t z, (forall u a, 0 < profile u a) -> 0 < unit_value (cut_setup profile t) cut_line cut_gas z.
Proof.
  intros profile t z Hp. unfold unit_value. change (d2_of (cut_setup profile t) cut_line cut_gas) with 0%Z. cbn [cut_setup cut_gas su_line su_unit su_profile su_kern su_nbins bfac g_temp sigma_a velfac vbox voigt_fac g_part p_h].
  cbv zeta. rewrite sqrt_1. change (Z.of_nat 4) with 4%Z.
  replace (1 * (1 * 1 * 0) * 1) with 0 by ring. replace (1 * (1 * 1)) with 1 by ring. replace (1 * 1) with 1 by ring.
  replace (4 / IZR 4) with 1 by field.
  assert (0 < sqrt PI) by (apply sqrt_lt_R0, PI_RGT_0).
  unfold Rdiv at 4. apply Rmult_lt_0_compat; [|lra]. apply Rmult_lt_0_compat.
  - apply Rmult_lt_0_compat; [apply Rdiv_lt_0_compat; lra|]. unfold light_kms. lra.
  - apply outer_strict; try lra. intros v. rewrite tophat_inner by lra.
    pose proof PI_RGT_0. apply Rmult_lt_0_compat; [apply Rmult_lt_0_compat; [lra|apply Rdiv_lt_0_compat; lra]|].
    unfold rsum. cbn [seq map fold_right].
    repeat match goal with |- context [profile ?x ?y] => let u := fresh "u" in pose proof (Hp x y); set (u := profile x y) in *; clearbody u end. lra.
Qed.

Lemma C106_cut_aux : forall profile, (forall u a, 0 < profile u a) -> exists su l g a a',
  su_profile su = profile /\ su_kern su <> Voronoi /\ no_gain su /\ 0 < tautail (su_line su) /\ 0 < g_temp g /\
  good_gas su g /\ good_line (su_box su) l /\
  single Depth su l (with_amount 1 g) a /\ single Depth su l (with_amount 2 g) a' /\ nth 1 a 0 = 0 /\ 0 < nth 1 a' 0.
Proof.
  intros profile Hp. set (u := unit_value (cut_setup profile 0) cut_line cut_gas).
  assert (U : forall z, 0 < u z) by (intros z; apply cut_unit_pos; exact Hp).
  set (su := cut_setup profile (3 / 2 * u 0%Z)).
  assert (Eu : forall d z, unit_value su cut_line (with_amount d cut_gas) z = u z) by reflexivity.
  assert (G : forall d, good_gas su (with_amount d cut_gas)) by (intros; unfold good_gas, good_particle, inside; cbn; lia).
  assert (Hl : good_line (su_box su) cut_line) by (unfold good_line, inside; cbn; lia).
  destruct (single_true Depth su cut_line (with_amount 1 cut_gas) ltac:(cbn; lia) (G 1) Hl) as (a & Sa & _ & Na).
  destruct (single_true Depth su cut_line (with_amount 2 cut_gas) ltac:(cbn; lia) (G 2) Hl) as (a' & Sa' & _ & Na').
  exists su, cut_line, cut_gas, a, a'. split; [reflexivity|]. split; [discriminate|].
  split; [split; [intros; left; apply Hp|cbn; lra]|]. split; [cbn [su cut_setup su_line tautail]; specialize (U 0%Z); lra|].
  split; [cbn; lra|]. split; [exact (G 1)|]. split; [exact Hl|]. split; [exact Sa|]. split; [exact Sa'|].
  rewrite Na, Na', !true_depth by discriminate.
  assert (Sk : forall d, skips (su_kern su) (vbox (su_line su)) (velfac (su_line su)) (su_unit su * su_unit su * IZR (d2_of su cut_line (with_amount d cut_gas)))
     (su_unit su * IZR (p_h (g_part (with_amount d cut_gas)))) = false).
  { intros d. change (d2_of su cut_line (with_amount d cut_gas)) with 0%Z. cbn [su cut_setup su_kern su_unit with_amount cut_gas g_part p_h skips].
    destruct (Rle_dec _ _); [lra|reflexivity]. }
  rewrite !Sk.
  assert (Wd : forall d, tau_window su cut_line (with_amount d cut_gas) = ([0%Z; 1%Z], [(-1)%Z; (-2)%Z])).
  { intros d. unfold tau_window. cbv zeta.
    replace (velfac (su_line su) * (su_unit su * IZR (along cut_line (with_amount d cut_gas))) + vel_along cut_line (with_amount d cut_gas)) with (1 / 2)
      by (cbn; lra).
    cbn [su cut_setup su_line su_nbins vbox]. change (Z.of_nat 4) with 4%Z. replace (1 / 2 / (4 / IZR 4)) with (1 / 2) by field.
    rewrite (Zfloor_imp 0 (1 / 2)) by (simpl; lra). reflexivity. }
  rewrite !Wd. cbn [fst snd with_amount g_dens tau_loop_events]. rewrite !at_cell_app, !rsum_app.
  change (tautail (su_line su)) with (3 / 2 * u 0%Z).
  change (mkGas (g_part cut_gas) (g_vel cut_gas) 1 (g_temp cut_gas)) with (with_amount 1 cut_gas).
  change (mkGas (g_part cut_gas) (g_vel cut_gas) 2 (g_temp cut_gas)) with (with_amount 2 cut_gas).
  rewrite !Eu. pose proof (U 0%Z) as U0. pose proof (U 1%Z) as U1. pose proof (U (-1)%Z) as U2. pose proof (U (-2)%Z) as U3.
  set (u0 := u 0%Z) in *. set (u1 := u 1%Z) in *. set (u2 := u (-1)%Z) in *. set (u3 := u (-2)%Z) in *. clearbody u0 u1 u2 u3.
  change (Z.of_nat (su_nbins su)) with 4%Z. change (wrap_index 0 4) with 0%Z. change (wrap_index 1 4) with 1%Z.
  change (wrap_index (-1) 4) with 3%Z. change (wrap_index (-2) 4) with 2%Z.
  change (Z.of_nat 1) with 1%Z. unfold at_cell, rsum.
  destruct (Rlt_dec (1 * u0) (3 / 2 * u0)) as [_|N]; [|lra]. destruct (Rlt_dec (2 * u0) (3 / 2 * u0)) as [N|_]; [lra|].
  split.
  - destruct (Rlt_dec (1 * u2) (3 / 2 * u0)); destruct (Rlt_dec (1 * u3) (3 / 2 * u0)); cbn; lra.
  - destruct (Rlt_dec (2 * u2) (3 / 2 * u0)); destruct (Rlt_dec (2 * u1) (3 / 2 * u0)); destruct (Rlt_dec (2 * u3) (3 / 2 * u0)); cbn; lra.
Qed.

(** ** The far side in the mirror *)
Definition far_setup : setup := mkSetup TopHat 1 16 2 (mkAbs 0 1 20 0 1 16) (fun u _ => exp (- (u * u))).
Definition far_mirror : motion := mkMotion (fun a => a) (fun a => if (a =? 1)%Z then (-1)%Z else 1%Z) (fun a => if (a =? 1)%Z then 8%Z else 0%Z) (fun _ => 0).
Definition far_gas (x : Z) : gas := mkGas (mkPart x 0 0 1) (0, 0, 0) 1 1.

Lemma far_unit : forall c x z, unit_value far_setup (mkLine 1 c 0 0) (far_gas x) z =
  1 / sqrt PI * (light_kms / 20) * (2 * 1 / 8 * (3 / 4 / PI) *
    rsum (map (fun i => exp (- ((INR i * (2 * 1 / 8) - 1 - (IZR z * 8 - IZR x + 4)) / 20 * ((INR i * (2 * 1 / 8) - 1 - (IZR z * 8 - IZR x + 4)) / 20)))) (seq 1 7))).
Proof.
  intros c x z. unfold unit_value. change (d2_of far_setup (mkLine 1 c 0 0) (far_gas x)) with 0%Z.
  change (along (mkLine 1 c 0 0) (far_gas x)) with x. change (vel_along (mkLine 1 c 0 0) (far_gas x)) with 0. cbn [far_setup far_gas su_line su_unit su_profile su_kern su_nbins bfac g_temp sigma_a velfac vbox voigt_fac g_part p_h].
  cbv zeta. rewrite sqrt_1. change (Z.of_nat 2) with 2%Z.
  replace (1 * (1 * 1 * 0) * 1) with 0 by ring. replace (1 * (1 * 1)) with 1 by ring. replace (20 * 1) with 20 by ring.
  replace (16 / IZR 2) with 8 by (simpl; field).
  unfold tau_kern_outer. cbv zeta.
  match goal with |- context [Rlt_dec ?a ?b] => destruct (Rlt_dec a b) as [_|N]; [|exfalso; apply N; lra] end.
  rewrite tophat_inner by lra.
  replace ((IZR z * 8 - (1 * (1 * IZR x) + 0) + 8 + (IZR z * 8 - (1 * (1 * IZR x) + 0))) / 2) with (IZR z * 8 - IZR x + 4) by field.
  rewrite Rdiv_1. reflexivity.
Qed.

Lemma far_px : forall c x z, (0 <= x < 8)%Z -> z = 0%Z -> px Depth far_setup (mkLine 1 c 0 0) 1 (far_gas x) = unit_value far_setup (mkLine 1 c 0 0) (far_gas x) (z - 1).
Proof.
  intros c x z Hx ->. unfold px. rewrite true_depth by discriminate.
  change (d2_of far_setup (mkLine 1 c 0 0) (far_gas x)) with 0%Z.
  assert (Sk : skips (su_kern far_setup) (vbox (su_line far_setup)) (velfac (su_line far_setup)) (su_unit far_setup * su_unit far_setup * 0)
     (su_unit far_setup * IZR (p_h (g_part (far_gas x)))) = false).
  { cbn [far_setup su_kern su_unit far_gas g_part p_h skips]. destruct (Rle_dec _ _); [lra|reflexivity]. }
  rewrite Sk.
  assert (Wd : tau_window far_setup (mkLine 1 c 0 0) (far_gas x) = ([0%Z], [(-1)%Z])).
  { unfold tau_window. cbv zeta.
    change (along (mkLine 1 c 0 0) (far_gas x)) with x. change (vel_along (mkLine 1 c 0 0) (far_gas x)) with 0.
    cbn [far_setup su_line su_nbins vbox velfac su_unit]. change (Z.of_nat 2) with 2%Z.
    assert (0 <= IZR x <= 7) by (split; apply IZR_le; lia).
    rewrite (Zfloor_imp 0); [reflexivity|]. simpl. split.
    - apply Rmult_le_pos; [lra|]. left. apply Rinv_0_lt_compat. lra.
    - apply Rmult_lt_reg_r with (16 / 2); [lra|]. replace ((1 * (1 * IZR x) + 0) / (16 / 2) * (16 / 2)) with (IZR x) by field. lra. }
  rewrite Wd. cbn [fst snd tau_loop_events]. change (Z.of_nat (su_nbins far_setup)) with 2%Z.
  change (wrap_index 0 2) with 0%Z. change (wrap_index (-1) 2) with 1%Z. change (0 - 1)%Z with (-1)%Z.
  change (Z.of_nat 1) with 1%Z. set (v := unit_value far_setup (mkLine 1 c 0 0) (far_gas x)). change (g_dens (far_gas x)) with 1. unfold at_cell, rsum.
  destruct (Rlt_dec (1 * v 0%Z) (tautail (su_line far_setup))); destruct (Rlt_dec (1 * v (-1)%Z) (tautail (su_line far_setup))); cbn; ring.
Qed.

Lemma C105_far_aux : exists M su l l' g g' a a', su_profile su = (fun u _ => exp (- (u * u))) /\ isometry M /\ no_gain su /\ tautail (su_line su) = 0 /\
  su_kern su <> Voronoi /\ matched su /\
  good_gas su g /\ good_gas su g' /\ good_line (su_box su) l /\ good_line (su_box su) l' /\ moved M (su_box su) g g' /\ moved_line M (su_box su) l l' /\
  sign M (l_axis l) = (-1)%Z /\
  velfac (su_line su) * (su_unit su * IZR (step M (l_axis l))) + boost M (l_axis l) = IZR 1 * (vbox (su_line su) / INR (su_nbins su)) /\
  single Depth su l g a /\ single Depth su l' g' a' /\ image M (su_nbins su) l 1 1 = 1%nat /\ nth 1 a' 0 < nth 1 a 0.
Proof.
  exists far_mirror, far_setup, (mkLine 1 0 0 0), (mkLine 1 8 0 0), (far_gas 2), (far_gas 6).
  assert (G : forall x, (0 <= x <= 16)%Z -> good_gas far_setup (far_gas x)) by (intros; unfold good_gas, good_particle, inside; cbn; lia).
  assert (Hl : forall c, (0 <= c <= 16)%Z -> good_line (su_box far_setup) (mkLine 1 c 0 0)) by (intros; unfold good_line, inside; cbn; lia).
  destruct (single_true Depth far_setup (mkLine 1 0 0 0) (far_gas 2) ltac:(cbn; lia) (G 2%Z ltac:(lia)) (Hl 0%Z ltac:(lia))) as (a & Sa & _ & Na).
  destruct (single_true Depth far_setup (mkLine 1 8 0 0) (far_gas 6) ltac:(cbn; lia) (G 6%Z ltac:(lia)) (Hl 8%Z ltac:(lia))) as (a' & Sa' & _ & Na').
  exists a, a'. split; [reflexivity|].
  split.
  { split; [|auto]. intros b Hb. split; [exact Hb|]. cbn. destruct (b =? 1)%Z; auto. }
  split; [split; [intros; left; apply exp_pos|cbn; lra]|]. split; [reflexivity|]. split; [discriminate|].
  split; [unfold matched; cbn; lra|]. split; [apply G; lia|]. split; [apply G; lia|]. split; [apply Hl; lia|]. split; [apply Hl; lia|].
  split.
  { split; [reflexivity|]. split; [reflexivity|]. split; [reflexivity|]. intros b Hb. cbn [far_mirror axes sign step boost]. split.
    - exists 0%Z. destruct Hb as [-> | [-> | ->]]; reflexivity.
    - destruct Hb as [-> | [-> | ->]]; cbn; ring. }
  split.
  { split; [reflexivity|]. intros b Hb. exists 0%Z. destruct Hb as [-> | [-> | ->]]; reflexivity. }
  split; [reflexivity|]. split; [cbn; lra|]. split; [exact Sa|]. split; [exact Sa'|]. split; [reflexivity|].
  change (nth 1 a' 0 < nth 1 a 0). rewrite Na, Na'.
  change (px Depth far_setup (mkLine 1 8 0 0) 1 (far_gas 6) < px Depth far_setup (mkLine 1 0 0 0) 1 (far_gas 2)).
  rewrite (far_px 8 6 0), (far_px 0 2 0) by (reflexivity || lia). rewrite !far_unit.
  assert (C : 0 < 1 / sqrt PI * (light_kms / 20)).
  { assert (0 < sqrt PI) by (apply sqrt_lt_R0, PI_RGT_0). apply Rmult_lt_0_compat; [apply Rdiv_lt_0_compat; lra|unfold light_kms; lra]. }
  apply Rmult_lt_compat_l; [exact C|].
  assert (0 < 2 * 1 / 8 * (3 / 4 / PI)). { pose proof PI_RGT_0. apply Rmult_lt_0_compat; [lra|apply Rdiv_lt_0_compat; lra]. }
  apply Rmult_lt_compat_l; [assumption|]. unfold rsum. cbn [seq map fold_right].
  assert (T : forall i, (1 <= i <= 7)%nat ->
    exp (- ((INR i * (2 * 1 / 8) - 1 - (IZR (0 - 1) * 8 - 6 + 4)) / 20 * ((INR i * (2 * 1 / 8) - 1 - (IZR (0 - 1) * 8 - 6 + 4)) / 20))) <
    exp (- ((INR i * (2 * 1 / 8) - 1 - (IZR (0 - 1) * 8 - 2 + 4)) / 20 * ((INR i * (2 * 1 / 8) - 1 - (IZR (0 - 1) * 8 - 2 + 4)) / 20)))).
  { intros i [H1 H2]. apply exp_increasing. change (IZR (0 - 1)) with (-1).
    apply le_INR in H1. apply le_INR in H2. set (x := INR i) in *. clearbody x. simpl in H1, H2. nra. }
  pose proof (T 1%nat ltac:(lia)). pose proof (T 2%nat ltac:(lia)). pose proof (T 3%nat ltac:(lia)). pose proof (T 4%nat ltac:(lia)).
  pose proof (T 5%nat ltac:(lia)). pose proof (T 6%nat ltac:(lia)). pose proof (T 7%nat ltac:(lia)).
  repeat match goal with |- context [exp ?x] => let u := fresh "u" in set (u := exp x) in *; clearbody u end. lra.
Qed.

(** ** Every set of particles has a run *)
Lemma run_exists : forall pos su ls gs, Forall (good_line (su_box su)) ls -> Forall (good_gas su) gs -> fits su ls gs ->
  (pos = true -> Forall (fun g => 0 <= g_dens g) gs) -> exists r, ranks_ok pos su ls [r] /\ all_gas [r] = gs.
Proof.
  intros pos su ls gs Hl Hg Hf Hd.
  set (k := filter (kept_by pos su ls) gs).
  exists ((gs, (seq 0 (length gs), (seq 0 (length k), seq 0 (length ls)))), []). split.
  - constructor; [|constructor]. split; [|constructor]. cbn [fst snd].
    split; [exact Hg|]. split; [exact Hf|]. split; [exact Hd|]. split; [apply Permutation_refl|]. split; [|apply Permutation_refl].
    cbn [fst snd]. intros kept E. rewrite read_particles_filter in E; [|destruct Hf; lia|apply Permutation_refl].
    injection E as <-. apply Permutation_refl.
  - unfold all_gas. cbn [map concat fst snd]. rewrite !app_nil_r. reflexivity.
Qed.
