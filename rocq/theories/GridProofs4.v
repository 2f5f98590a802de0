(** Interpolated gas properties: an object that can be built. *)
From Coq Require Import Reals List Bool Lia Lra.
From Verif Require Import RatesModel RatesSpec RatesProofs NeutralModel GridModel GridSpec GridProofs GridProofs2 GridProofs3.
Import ListNotations.
Local Open Scope R_scope.

Lemma loose_equilib : forall n maxi density u, shipped (recomb n) -> 0 <= photo_factor n -> converge n = 10 ->
  length density = length u -> Forall (fun d => 0 < d <= 1) density -> Forall (fun e => 0 < e) u ->
  exists ne, get_equilib_ne n (S maxi) density u 0.24 = Value ne /\ length ne = length density.
Proof.
  intros n maxi density u SH PF CV Len Fd U.
  assert (HE : 0 <= 0.24 < 1) by lra.
  set (nh := map (fun d => d * (1 - 0.24)) density).
  assert (Ln : length nh = length density) by (unfold nh; apply map_length).
  assert (N4 : Forall (fun h => 0 < h < 4) nh).
  { unfold nh. apply Forall_forall. intros x I. apply in_map_iff in I as (d & <- & I). rewrite Forall_forall in Fd.
    specialize (Fd d I). cbv beta in *. lra. }
  assert (N : Forall (fun h => 0 < h) nh) by (eapply Forall_impl; [|exact N4]; cbv beta; intros; lra).
  destruct (rooted_total n 0.24 SH PF HE nh u nh) as (p & E & FP & LP); auto; [|lia|].
  { eapply Forall_impl; [|exact N]; cbv beta; intros; lra. }
  assert (YY : yy 0.24 < 1) by (unfold yy; lra).
  destruct (rooted_total n 0.24 SH PF HE nh u p) as (q & E2 & FQ & LQ); auto; [|lia|].
  { eapply Forall_impl; [|exact FP]. cbn beta. intros; lra. }
  assert (B : forall l m, length l = length m -> Forall (fun y => 0 <= y <= 1 + 2 * yy 0.24) l ->
     Forall (fun y => 0 <= y < 4) m -> all_close (converge n / 2) l m = true).
  { intros l m LL F1 F2. apply all_close_spec; auto.
    revert m LL F2. induction F1; intros [|z m] LL F2; cbn [length] in LL; try discriminate; constructor.
    - inversion F2; subst. rewrite CV. apply Rabs_def1; lra.
    - inversion F2; subst. apply IHF1; auto. }
  exists (zip2 Rmult p nh). split.
  - unfold get_equilib_ne. fold nh. unfold fixed_point. cbn [helper]. rewrite E.
    rewrite B; auto; [|eapply Forall_impl; [|exact N4]; cbv beta; intros; lra]. cbn [fst]. rewrite E2.
    assert (all_close (converge n) q p = true) as ->; auto.
    apply all_close_spec; auto.
    assert (G : all_close (converge n / 2) q p = true).
    { apply B; auto. eapply Forall_impl; [|exact FP]. cbn beta. intros; lra. }
    apply all_close_spec in G; auto. clear - G CV. induction G; constructor; auto. lra.
  - rewrite <- Ln. clear - LP. revert p LP. induction nh as [|h nh IH]; intros [|x p] LP; try discriminate; [reflexivity|].
    cbn [zip2 length] in *. rewrite IH by lia. reflexivity.
Qed.

Lemma neutrals_total : forall n nh u ne, length nh = length ne -> length u = length ne ->
  (forall i h e m, nth_error nh i = Some h -> nth_error u i = Some e -> nth_error ne i = Some m ->
     exists t, get_temp (m / h) e 0.24 = Some t) ->
  (exists fs, neutrals n 0.24 nh u ne = Some fs) /\ (exists ts, temps 0.24 nh u ne = Some ts).
Proof.
  intros n. induction nh as [|h nh IH]; intros [|e u] [|m ne] L1 L2 H; try discriminate; [split; eexists; reflexivity|].
  cbn [neutrals temps length] in *. destruct (H 0%nat h e m eq_refl eq_refl eq_refl) as (t & Ht).
  destruct (IH u ne ltac:(lia) ltac:(lia)) as [(fs & Hf) (ts & Hs)].
  { intros i h' e' m' A B C. apply (H (S i) h' e' m'); assumption. }
  unfold neutral1. rewrite Ht, Hf, Hs. split; eexists; reflexivity.
Qed.

Lemma loose_network : forall n maxi density u, shipped (recomb n) -> 0 <= photo_factor n -> converge n = 10 ->
  length density = length u -> Forall (fun d => 0 < d <= 1) density -> Forall (fun e => 0 < e) u ->
  (exists fs, get_neutral_fraction n (S maxi) density u 0.24 = Value fs) /\
  (exists ts, network_temp n (S maxi) density u 0.24 = Value ts).
Proof.
  intros n maxi density u SH PF CV Len Fd U.
  destruct (loose_equilib n maxi density u SH PF CV Len Fd U) as (ne & E & Ln).
  assert (Fd' : Forall (fun d => 0 < d) density) by (eapply Forall_impl; [|exact Fd]; cbv beta; intros; lra).
  destruct (C40_solution_aux n (S maxi) density u 0.24 SH PF ltac:(lra) Len Fd' U) as [_ Sol]. destruct (Sol ne E) as [_ Sol2].
  unfold get_neutral_fraction, network_temp. rewrite E.
  destruct (neutrals_total n (map (fun d => d * (1 - 0.24)) density) u ne) as [(fs & ->) (ts & ->)]; [rewrite map_length; lia|lia| |split; eexists; reflexivity].
  intros i h e m A B C. rewrite nth_error_map in A. destruct (nth_error density i) as [d|] eqn:Nd; [|discriminate]. injection A as <-.
  destruct (Sol2 i d e m Nd B C) as (_ & t & Gt & _). eauto.
Qed.

Lemma columns_total : forall solve dg eg, (forall d, In d dg -> exists f, solve (map (fun _ => exp d) eg) (map exp eg) = Value f) ->
  exists cs, columns solve dg eg = Some cs.
Proof.
  intros solve dg eg H. induction dg as [|d dg IH]; [eexists; reflexivity|]. cbn [columns].
  destruct (H d (or_introl eq_refl)) as (f & ->). destruct IH as (cs & ->); [intros x I; apply H; right; exact I|]. eexists; reflexivity.
Qed.

Lemma loose_make : forall n maxi bg z maxdens tf gf mean, shipped (recomb n) -> 0 <= photo_factor n -> converge n = 10 ->
  thinnest z < maxdens <= 1 -> exists g, make n (S maxi) true bg z maxdens tf gf mean = Some g.
Proof.
  intros n maxi bg z maxdens tf gf mean SH PF CV [L M1]. pose proof (thinnest_pos _ _ L) as MD. unfold make. cbv zeta.
  set (dlo := if Rle_dec 1 z then -16 else -20).
  assert (Lt : dlo < ln maxdens).
  { apply exp_lt_inv. rewrite exp_ln by exact MD. unfold dlo. unfold thinnest in L. destruct (Rle_dec 1 z); exact L. }
  assert (Ns : (2 <= 500)%nat) by (apply Nat.leb_le; reflexivity).
  set (dg := linspace dlo (ln maxdens) 500). set (eg := linspace 2 21 500).
  assert (B : forall d, In d dg -> exp d <= 1).
  { intros d I. apply (linspace_range _ _ _ _ Lt Ns) in I. rewrite <- exp_0.
    assert (ln maxdens <= 0) by (rewrite <- ln_1; destruct (Rle_lt_or_eq_dec _ _ M1) as [Q|Q]; [apply Rlt_le, ln_increasing; lra|rewrite Q; lra]).
    destruct (Rle_lt_or_eq_dec d 0 ltac:(lra)) as [Q|Q]; [apply Rlt_le, exp_increasing; exact Q|rewrite Q; lra]. }
  assert (S1 : forall d, In d dg -> (exists fs, get_neutral_fraction n (S maxi) (map (fun _ => exp d) eg) (map exp eg) 0.24 = Value fs) /\
     (exists ts, network_temp n (S maxi) (map (fun _ => exp d) eg) (map exp eg) 0.24 = Value ts)).
  { intros d I. destruct (grid_inputs d eg) as (G1 & G2 & G3). apply loose_network; auto.
    apply Forall_forall. intros x J. apply in_map_iff in J as (y & <- & _). split; [apply exp_pos|]. exact (B d I). }
  destruct (columns_total (fun d u => get_neutral_fraction n (S maxi) d u 0.24) dg eg) as (h & ->); [intros d I; apply (S1 d I)|].
  destruct (columns_total (fun d u => network_temp n (S maxi) d u 0.24) dg eg) as (t & ->); [intros d I; apply (S1 d I)|].
  eexists; reflexivity.
Qed.
