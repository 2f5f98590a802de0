(** Proofs about the symmetries of the periodic box: whole spectra, and the amount of gas. *)
From Coq Require Import ZArith List Reals Lra Lia Permutation Psatz.
From Verif Require Import Containers IndexModel IndexSpec IndexProofs AbsorptionModel AbsorptionSpec AbsorptionProofs KernelProofs TauProofs
  PipelineModel PipelineSpec PipelineProofs SymmetrySpec SymmetryProofs.
From Flocq Require Import Core.Raux.
Import ListNotations.
Local Open Scope R_scope.

Lemma along_place : forall l g, along l g = place (l_axis l) g.
Proof. reflexivity. Qed.
Lemma vel_speed : forall l g, vel_along l g = speed (l_axis l) g.
Proof. intros l g. unfold vel_along, speed, pick. destruct (g_vel g) as ((x & y) & z). reflexivity. Qed.

Lemma d2_moved : forall M su g l g' l', isometry M -> good_gas su g -> good_gas su g' -> good_line (su_box su) l -> good_line (su_box su) l' ->
  moved M (su_box su) g g' -> moved_line M (su_box su) l l' -> d2_of su l' g' = d2_of su l g.
Proof.
  intros M su g l g' l' I G G' Hl Hl' Mg Ml.
  destruct G as (G1 & G2 & G3), G' as (G1' & G2' & G3').
  apply (transverse_unique (su_box su) (g_part g') l').
  - apply transverse_calc; [lia|assumption|assumption].
  - apply (distance_moved M (su_box su) g l g' l'); try assumption; [apply Hl|].
    apply transverse_calc; [lia|assumption|assumption].
Qed.

Lemma mod_wrap : forall j m k n, ((j + (m + k * n)) mod n = (j + m) mod n)%Z.
Proof. intros. replace (j + (m + k * n))%Z with (j + m + k * n)%Z by ring. apply Z_mod_plus_full. Qed.

Lemma px_column_moved : forall M su g l g' l' m j, isometry M -> su_kern su <> Voronoi -> matched su -> (j < su_nbins su)%nat ->
  good_gas su g -> good_gas su g' -> good_line (su_box su) l -> good_line (su_box su) l' ->
  moved M (su_box su) g g' -> moved_line M (su_box su) l l' ->
  velfac (su_line su) * (su_unit su * IZR (step M (l_axis l))) = IZR m * (vbox (su_line su) / INR (su_nbins su)) ->
  px Column su l' (image M (su_nbins su) l m j) g' = px Column su l j g.
Proof.
  intros M su g l g' l' m j I Hk (Hf & Hv & Hm) Hj G G' Hl Hl' Mg Ml E.
  assert (Hn : (0 < Z.of_nat (su_nbins su))%Z) by lia.
  assert (HN : 0 < INR (su_nbins su)) by (apply lt_0_INR; lia).
  unfold px, true_events. rewrite (d2_moved M su g l g' l') by assumption.
  destruct Mg as (Eh & Ed & Et & Mg). rewrite Eh. unfold particle_events. rewrite Ed, !along_place, (proj1 Ml).
  destruct (Mg (l_axis l) (proj1 Hl)) as ((k & Ek) & _). rewrite Ek.
  set (L := su_line su) in *. set (n := Z.of_nat (su_nbins su)) in *.
  assert (Ew : su_unit su * IZR (step M (l_axis l)) = IZR m * (vbox L / IZR n / velfac L)).
  { apply Rmult_eq_reg_l with (velfac L); [|lra]. rewrite E. unfold n. rewrite <- INR_IZR_INZ. field. lra. }
  assert (Eb : su_unit su * IZR (su_box su) = IZR n * (vbox L / IZR n / velfac L)).
  { fold L in Hm. rewrite Hm. unfold n. rewrite <- INR_IZR_INZ. field. lra. }
  set (w := vbox L / IZR n / velfac L) in *.
  rewrite !plus_IZR, !mult_IZR. unfold image. destruct I as (I1 & _). destruct (I1 _ (proj1 Hl)) as (_ & [Es | Es]); rewrite Es; cbn [Z.eqb Pos.eqb].
  - replace (su_unit su * (1 * IZR (place (l_axis l) g) + IZR (step M (l_axis l)) + IZR k * IZR (su_box su)))
      with (su_unit su * IZR (place (l_axis l) g) + IZR (m + k * n) * w)
      by (rewrite plus_IZR, mult_IZR, Rmult_plus_distr_r, Rmult_assoc, <- Eb, <- Ew; ring).
    unfold w. rewrite colden_events_shift by assumption.
    rewrite Z2Nat.id by (apply Z.mod_pos_bound; exact Hn). fold n.
    rewrite <- (mod_wrap _ m k n). rewrite at_cell_rot; [reflexivity|exact Hn|unfold n; lia|apply colden_events_within; exact Hn].
  - replace (su_unit su * (-1 * IZR (place (l_axis l) g) + IZR (step M (l_axis l)) + IZR k * IZR (su_box su)))
      with (IZR (m + k * n) * w - su_unit su * IZR (place (l_axis l) g))
      by (rewrite plus_IZR, mult_IZR, Rmult_plus_distr_r, (Rmult_assoc (IZR k)), <- Eb, <- Ew; ring).
    rewrite Z2Nat.id by (apply Z.mod_pos_bound; exact Hn). fold n.
    replace ((m - 1 - Z.of_nat j) mod n)%Z with ((m + k * n - 1 - Z.of_nat j) mod n)%Z
      by (replace (m + k * n - 1 - Z.of_nat j)%Z with (m - 1 - Z.of_nat j + k * n)%Z by ring; apply Z_mod_plus_full).
    unfold w. apply colden_mirror; try assumption. unfold n. lia.
Qed.

Lemma px_depth_moved : forall M su g l g' l' m j, isometry M -> su_kern su <> Voronoi -> matched su -> (j < su_nbins su)%nat ->
  good_gas su g -> good_gas su g' -> good_line (su_box su) l -> good_line (su_box su) l' ->
  moved M (su_box su) g g' -> moved_line M (su_box su) l l' -> sign M (l_axis l) = 1%Z ->
  velfac (su_line su) * (su_unit su * IZR (step M (l_axis l))) + boost M (l_axis l) = IZR m * (vbox (su_line su) / INR (su_nbins su)) ->
  px Depth su l' (image M (su_nbins su) l m j) g' = px Depth su l j g.
Proof.
  intros M su g l g' l' m j I Hk (Hf & Hv & Hm) Hj G G' Hl Hl' Mg Ml Es E.
  assert (Hn : (0 < Z.of_nat (su_nbins su))%Z) by lia.
  assert (HN : 0 < INR (su_nbins su)) by (apply lt_0_INR; lia).
  unfold px, true_events. rewrite (d2_moved M su g l g' l') by assumption.
  destruct Mg as (Eh & Ed & Et & Mg). rewrite Eh. unfold particle_events. rewrite Ed, Et, !along_place, !vel_speed, (proj1 Ml).
  destruct (Mg (l_axis l) (proj1 Hl)) as ((k & Ek) & Ev). rewrite Ek, Ev, Es.
  set (L := su_line su) in *. set (n := Z.of_nat (su_nbins su)) in *.
  rewrite (tau_events_shift _ _ _ _ _ _ (su_unit su * IZR (place (l_axis l) g)) (speed (l_axis l) g) _ _ _ _ (m + k * n)).
  - unfold image. rewrite Es. cbn [Z.eqb Pos.eqb]. rewrite Z2Nat.id by (apply Z.mod_pos_bound; exact Hn). fold n.
    rewrite <- (mod_wrap _ m k n). rewrite at_cell_rot; [reflexivity|exact Hn|unfold n; lia|apply tau_events_within; exact Hn].
  - assumption.
  - assumption.
  - exact Hn.
  - rewrite plus_IZR, !plus_IZR, !mult_IZR, Rmult_plus_distr_r.
    assert (Eb : IZR k * IZR n * (vbox L / IZR n) = IZR k * (velfac L * (su_unit su * IZR (su_box su)))).
    { fold L in Hm. rewrite <- Hm. unfold n. rewrite <- INR_IZR_INZ. field. lra. }
    rewrite Eb. unfold n at 1. rewrite <- INR_IZR_INZ, <- E. ring.
Qed.

(** ** Whole spectra *)
Lemma image_range : forall M n l m j, (0 < n)%nat -> (image M n l m j < n)%nat.
Proof. intros. unfold image. match goal with |- (Z.to_nat (?x mod ?y) < _)%nat => pose proof (Z.mod_pos_bound x y ltac:(lia)) end. lia. Qed.

Lemma spectra_related : forall qu pos pos' su su' ls ls' ranks ranks' gs' (R2 : gas -> gas -> Prop) (RL : sightline -> sightline -> Prop) (f : sightline -> nat -> nat),
  (0 < su_nbins su)%nat -> su_nbins su' = su_nbins su -> su_kern su <> Voronoi -> su_kern su' <> Voronoi ->
  Forall (good_line (su_box su)) ls -> Forall (good_line (su_box su')) ls' ->
  ranks_ok pos su ls ranks -> ranks_ok pos' su' ls' ranks' ->
  Permutation (all_gas ranks') gs' -> Forall2 R2 (all_gas ranks) gs' -> Forall2 RL ls ls' ->
  exists out out', compute_spectra qu pos su ls ranks = Some out /\ compute_spectra qu pos' su' ls' ranks' = Some out' /\
    length out = (length ls * su_nbins su)%nat /\ length out' = length out /\
    forall i l, nth_error ls i = Some l ->
      (forall j, (j < su_nbins su)%nat -> (f l j < su_nbins su)%nat) ->
      (forall l' g g' j, RL l l' -> R2 g g' -> good_line (su_box su) l -> good_line (su_box su') l' -> good_gas su g -> good_gas su' g' ->
         (j < su_nbins su)%nat -> px qu su' l' (f l j) g' = px qu su l j g) ->
      forall j, (j < su_nbins su)%nat -> nth (i * su_nbins su + f l j) out' 0 = nth (i * su_nbins su + j) out 0.
Proof.
  intros qu pos pos' su su' ls ls' ranks ranks' gs' R2 RL f Hn En Hk Hk' Hls Hls' Hr Hr' P F2 FL.
  destruct (compute_spectra_px qu pos su ls ranks Hn Hk Hls Hr) as (out & E & Lo & V).
  destruct (compute_spectra_px qu pos' su' ls' ranks' ltac:(rewrite En; exact Hn) Hk' Hls' Hr') as (out' & E' & Lo' & V').
  assert (LL : length ls = length ls') by (clear - FL; induction FL; simpl; congruence).
  exists out, out'. split; [exact E|]. split; [exact E'|]. split; [exact Lo|]. split; [rewrite Lo', Lo, En, LL; reflexivity|].
  intros i l Hi Hf Hpx j Hj.
  assert (X : exists l', nth_error ls' i = Some l' /\ RL l l').
  { clear - FL Hi. revert ls' FL i Hi. induction ls as [|a ls IH]; intros ls' FL i Hi; [destruct i; discriminate|].
    inversion FL as [|? b ? bs H1 H2]; subst. destruct i; cbn in Hi |- *; [injection Hi as <-; exists b; auto|].
    apply IH; assumption. }
  destruct X as (l' & Hi' & HR).
  rewrite En in V'. rewrite (V' i l' (f l j) Hi' (Hf j Hj)), (V i l j Hi Hj).
  rewrite (rsum_perm _ _ (Permutation_map _ P)).
  assert (G : Forall (good_gas su) (all_gas ranks)) by (eapply all_gas_good; exact Hr).
  assert (G' : Forall (good_gas su') gs').
  { eapply Permutation_Forall; [exact P|]. eapply all_gas_good; exact Hr'. }
  assert (Gl : good_line (su_box su) l) by (rewrite Forall_forall in Hls; apply Hls; eapply nth_error_In; exact Hi).
  assert (Gl' : good_line (su_box su') l') by (rewrite Forall_forall in Hls'; apply Hls'; eapply nth_error_In; exact Hi').
  clear - F2 G G' Gl Gl' HR Hpx Hj. induction F2 as [|g g' gs gs' H1 H2 IH]; [reflexivity|].
  inversion G; inversion G'; subst. unfold rsum in *. cbn [map fold_right]. rewrite IH by assumption. f_equal.
  apply Hpx; assumption.
Qed.

Lemma C105_column_aux : forall M pos pos' su ls ls' ranks ranks' gs',
  isometry M -> (0 < su_nbins su)%nat -> su_kern su <> Voronoi -> matched su ->
  Forall (good_line (su_box su)) ls -> Forall (good_line (su_box su)) ls' ->
  ranks_ok pos su ls ranks -> ranks_ok pos' su ls' ranks' ->
  Permutation (all_gas ranks') gs' -> Forall2 (moved M (su_box su)) (all_gas ranks) gs' -> Forall2 (moved_line M (su_box su)) ls ls' ->
  exists out out', compute_spectra Column pos su ls ranks = Some out /\ compute_spectra Column pos' su ls' ranks' = Some out' /\
    length out = (length ls * su_nbins su)%nat /\ length out' = length out /\
    forall i l m, nth_error ls i = Some l ->
      velfac (su_line su) * (su_unit su * IZR (step M (l_axis l))) = IZR m * (vbox (su_line su) / INR (su_nbins su)) ->
      forall j, (j < su_nbins su)%nat ->
        nth (i * su_nbins su + image M (su_nbins su) l m j) out' 0 = nth (i * su_nbins su + j) out 0.
Proof.
  intros M pos pos' su ls ls' ranks ranks' gs' I Hn Hk Hm Hls Hls' Hr Hr' P F2 FL.
  destruct (spectra_related Column pos pos' su su ls ls' ranks ranks' gs' _ _ (fun l j => j) Hn eq_refl Hk Hk Hls Hls' Hr Hr' P F2 FL)
    as (out & out' & E & E' & L1 & L2 & _).
  exists out, out'. split; [exact E|]. split; [exact E'|]. split; [exact L1|]. split; [exact L2|].
  intros i l m Hi Hs j Hj.
  destruct (spectra_related Column pos pos' su su ls ls' ranks ranks' gs' _ _ (fun l j => image M (su_nbins su) l m j) Hn eq_refl Hk Hk Hls Hls' Hr Hr' P F2 FL)
    as (o & o' & F & F' & _ & _ & H).
  rewrite E in F. injection F as <-. rewrite E' in F'. injection F' as <-.
  apply (H i l Hi); [intros; apply image_range; exact Hn| |exact Hj].
  intros l' g g' j' Hl' Hg Gl Gl' Gg Gg' Hj'. apply px_column_moved; assumption.
Qed.

Lemma C105_depth_aux : forall M pos pos' su ls ls' ranks ranks' gs',
  isometry M -> (0 < su_nbins su)%nat -> su_kern su <> Voronoi -> matched su ->
  Forall (good_line (su_box su)) ls -> Forall (good_line (su_box su)) ls' ->
  ranks_ok pos su ls ranks -> ranks_ok pos' su ls' ranks' ->
  Permutation (all_gas ranks') gs' -> Forall2 (moved M (su_box su)) (all_gas ranks) gs' -> Forall2 (moved_line M (su_box su)) ls ls' ->
  exists out out', compute_spectra Depth pos su ls ranks = Some out /\ compute_spectra Depth pos' su ls' ranks' = Some out' /\
    length out = (length ls * su_nbins su)%nat /\ length out' = length out /\
    forall i l m, nth_error ls i = Some l -> sign M (l_axis l) = 1%Z ->
      velfac (su_line su) * (su_unit su * IZR (step M (l_axis l))) + boost M (l_axis l) = IZR m * (vbox (su_line su) / INR (su_nbins su)) ->
      forall j, (j < su_nbins su)%nat ->
        nth (i * su_nbins su + image M (su_nbins su) l m j) out' 0 = nth (i * su_nbins su + j) out 0.
Proof.
  intros M pos pos' su ls ls' ranks ranks' gs' I Hn Hk Hm Hls Hls' Hr Hr' P F2 FL.
  destruct (spectra_related Depth pos pos' su su ls ls' ranks ranks' gs' _ _ (fun l j => j) Hn eq_refl Hk Hk Hls Hls' Hr Hr' P F2 FL)
    as (out & out' & E & E' & L1 & L2 & _).
  exists out, out'. split; [exact E|]. split; [exact E'|]. split; [exact L1|]. split; [exact L2|].
  intros i l m Hi Hsg Hs j Hj.
  destruct (spectra_related Depth pos pos' su su ls ls' ranks ranks' gs' _ _ (fun l j => image M (su_nbins su) l m j) Hn eq_refl Hk Hk Hls Hls' Hr Hr' P F2 FL)
    as (o & o' & F & F' & _ & _ & H).
  rewrite E in F. injection F as <-. rewrite E' in F'. injection F' as <-.
  apply (H i l Hi); [intros; apply image_range; exact Hn| |exact Hj].
  intros l' g g' j' Hl' Hg Gl Gl' Gg Gg' Hj'. apply px_depth_moved; assumption.
Qed.
