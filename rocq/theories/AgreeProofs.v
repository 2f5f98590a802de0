(** Proofs that the flux statistics agree with each other. *)
From Coq Require Import List Reals Lra Lia Arith.
From Verif Require Import AbsorptionSpec AbsorptionProofs SnapshotModel RescaleModel RescaleSpec FluxModel FluxSpec FluxProofs FluxProofs2 FluxProofs3
  ObserverModel ObserverProofs.
Import ListNotations.
Local Open Scope R_scope.

(** ** Sums over the pixels *)

Lemma rsum_concat : forall (f : R -> R) (rows : list (list R)), rsum (map f (concat rows)) = rsum (map (fun row => rsum (map f row)) rows).
Proof.
  intros f. induction rows as [|row rows IH]; [reflexivity|]. cbn [concat]. rewrite map_app, rsum_app, IH. reflexivity.
Qed.

Lemma concat_length : forall n (rows : list (list R)), rectangular n rows -> length (concat rows) = (length rows * n)%nat.
Proof.
  intros n. induction 1 as [|row rows H _ IH]; [reflexivity|]. cbn [concat length]. rewrite app_length, IH, H. lia.
Qed.

Lemma rsum_const : forall (A : Type) (c : R) (l : list A), rsum (map (fun _ => c) l) = c * INR (length l).
Proof.
  induction l as [|x l IH]; [cbn; ring|]. change (c + rsum (map (fun _ => c) l) = c * INR (S (length l))). rewrite IH, S_INR. ring.
Qed.

Lemma rsum_minus : forall (A : Type) (f g : A -> R) l, rsum (map (fun x => f x - g x) l) = rsum (map f l) - rsum (map g l).
Proof.
  induction l as [|x l IH]; [cbn; ring|]. change (f x - g x + rsum (map (fun x => f x - g x) l) = f x + rsum (map f l) - (g x + rsum (map g l))).
  rewrite IH. ring.
Qed.

Lemma absorbed : forall t, 0 <= t -> 0 <= 1 - exp (- t) < 1.
Proof.
  intros t Ht. pose proof (exp_pos (- t)). split; [|lra].
  destruct (Req_dec t 0) as [->|N]; [rewrite Ropp_0, exp_0; lra|]. pose proof (exp_increasing (- t) 0 ltac:(lra)) as Q. rewrite exp_0 in Q. lra.
Qed.

(** ** Equivalent widths and the mean flux *)

Lemma row_width : forall step row, 0 < step -> row <> [] -> List.Forall (fun t => 0 <= t) row ->
  let W := trapz step (map (fun t => 1 - exp (- t)) row) in
  let S := rsum (map (fun t => 1 - exp (- t)) row) in step * S - step <= W <= step * S.
Proof.
  intros step row Hs Hne Hp. cbn zeta. set (y := map (fun t => 1 - exp (- t)) row).
  assert (Hy : y <> []) by (unfold y; destruct row; [congruence|discriminate]).
  assert (Hin : forall x, In x y -> 0 <= x <= 1).
  { intros x Hx. apply in_map_iff in Hx. destruct Hx as (t & <- & Ht). rewrite List.Forall_forall in Hp. specialize (Hp t Ht).
    destruct (absorbed t Hp). lra. }
  rewrite (trapz_sum step y Hy).
  pose proof (Hin (last y 0) (last_In y 0 Hy)) as Hl.
  assert (Hh : 0 <= hd 0 y <= 1) by (apply Hin; destruct y; [congruence|left; reflexivity]).
  assert (Q : step * ((hd 0 y + last y 0) / 2) <= step * 1) by (apply Rmult_le_compat_l; lra).
  assert (Q2 : 0 <= step * ((hd 0 y + last y 0) / 2)) by (apply Rmult_le_pos; lra). lra.
Qed.

Lemma C110_width_aux : forall dvbin light line npix tau, 0 < dvbin -> 0 < light -> 0 < line ->
  tau <> [] -> (0 < npix)%nat -> rectangular npix tau -> List.Forall (List.Forall (fun t => 0 <= t)) tau ->
  let c := light / 100000 in let vmax := INR npix * dvbin in
  let total := line * (vmax / c) * (1 - mean (map (fun t => exp (- t)) (concat tau))) in
  total - line * (dvbin / c) <= mean (equivalent_width dvbin light line tau) <= total.
Proof.
  intros dvbin light line npix tau Hd Hl Hline Hne Hn Hr Hp. cbn zeta. set (step := dvbin / (light / 100000) * line).
  assert (Hs : 0 < step) by (apply step_pos; assumption).
  assert (HT : 0 < INR (length tau)) by (apply lt_0_INR; destruct tau; [congruence|cbn; lia]).
  assert (HN : 0 < INR npix) by (apply lt_0_INR; assumption).
  assert (E : line * (INR npix * dvbin / (light / 100000)) * (1 - mean (map (fun t => exp (- t)) (concat tau))) =
    step * rsum (map (fun row => rsum (map (fun t => 1 - exp (- t)) row)) tau) / INR (length tau)).
  { rewrite <- (rsum_concat (fun t => 1 - exp (- t))). rewrite rsum_minus, rsum_const. unfold mean. rewrite map_length, (concat_length npix) by assumption.
    rewrite mult_INR. unfold step. field. repeat split; lra. }
  rewrite E. unfold mean at 1 2. unfold equivalent_width. fold step. rewrite map_length.
  assert (B : step * rsum (map (fun row => rsum (map (fun t => 1 - exp (- t)) row)) tau) - step * INR (length tau) <=
    rsum (map (fun row => trapz step (map (fun t => 1 - exp (- t)) row)) tau) <=
    step * rsum (map (fun row => rsum (map (fun t => 1 - exp (- t)) row)) tau)).
  { assert (Hrow : forall row, In row tau -> row <> [] /\ List.Forall (fun t => 0 <= t) row).
    { intros row Hin. unfold rectangular in Hr. rewrite List.Forall_forall in Hr, Hp. split; [|apply Hp; assumption].
      intros ->. specialize (Hr [] Hin). cbn in Hr. lia. }
    split.
    - rewrite <- rsum_map_scal, <- (rsum_const _ step tau), <- (rsum_minus _ (fun row => step * rsum (map (fun t => 1 - exp (- t)) row)) (fun _ => step)).
      apply rsum_map_le. intros row Hin. destruct (Hrow row Hin). apply row_width; assumption.
    - rewrite <- rsum_map_scal. apply rsum_map_le. intros row Hin. destruct (Hrow row Hin). apply row_width; assumption. }
  replace (line * (dvbin / (light / 100000))) with (step * INR (length tau) / INR (length tau)) by (unfold step; field; lra).
  assert (I : 0 < / INR (length tau)) by (apply Rinv_0_lt_compat; assumption). unfold Rdiv at 1 2 3 4 5. split.
  - rewrite <- Rmult_minus_distr_r. apply Rmult_le_compat_r; lra.
  - apply Rmult_le_compat_r; lra.
Qed.

(** ** The mean of the flux PDF *)

Lemma has_bin : forall n f, (0 < n)%nat -> 0 <= f <= 1 -> exists j, (j < n)%nat /\ in_bin n j f.
Proof.
  intros n f Hn Hf. assert (HN : 0 < INR n) by (apply lt_0_INR; assumption).
  assert (G : forall m, (m <= n)%nat -> f < INR m / INR n -> exists j, (j < n)%nat /\ in_bin n j f).
  { induction m as [|m IH]; intros Hm Hlt; [cbn in Hlt; unfold Rdiv in Hlt; lra|].
    destruct (Rlt_dec f (INR m / INR n)) as [L|L]; [apply IH; [lia|assumption]|].
    exists m. split; [lia|]. split; [lra|left; assumption]. }
  destruct (Rlt_dec f 1) as [L|L].
  - apply (G n (le_n n)). unfold Rdiv. rewrite Rinv_r; lra.
  - exists (n - 1)%nat. split; [lia|]. split.
    + apply Rle_trans with (INR n / INR n); [apply Rmult_le_compat_r; [left; apply Rinv_0_lt_compat; assumption|apply le_INR; lia]|].
      unfold Rdiv. rewrite Rinv_r; lra.
    + right. split; [lia|lra].
Qed.

Lemma one_bin : forall n i j f, (i < j)%nat -> (j < n)%nat -> in_bin n i f -> in_bin n j f -> False.
Proof.
  intros n i j f Hij Hj (_ & [L|(E & _)]) (Lj & _); [|lia].
  assert (HN : 0 < INR n) by (apply lt_0_INR; lia).
  assert (Q : INR (S i) / INR n <= INR j / INR n) by (apply Rmult_le_compat_r; [left; apply Rinv_0_lt_compat; assumption|apply le_INR; lia]).
  lra.
Qed.

Lemma binned : forall n f, (0 < n)%nat -> 0 <= f <= 1 ->
  Rabs (rsum (map (fun i => (edge n (S i) + edge n i) / 2 * (cumulative [f] n (S i) - cumulative [f] n i)) (seq 0 n)) - f) <= / (2 * INR n).
Proof.
  intros n f Hn Hf. assert (HN : 0 < INR n) by (apply lt_0_INR; assumption). destruct (has_bin n f Hn Hf) as (j & Hj & B).
  rewrite (rsum_map_ext _ _ (fun i => if Nat.eqb j i then (edge n (S j) + edge n j) / 2 else 0)).
  - rewrite rsum_single by assumption. destruct B as (B1 & B2). fold (edge n j) in B1. fold (edge n (S j)) in B2.
    assert (Ew : edge n (S j) - edge n j = / INR n) by (apply edge_width; assumption).
    assert (E2 : / (2 * INR n) = / INR n / 2) by (field; lra).
    assert (B3 : f <= edge n (S j)).
    { destruct B2 as [L|(E & ->)]; [lra|]. right. unfold edge. rewrite E. field. lra. }
    rewrite E2, <- Ew. apply Rabs_le. lra.
  - intros i Hi. apply in_seq in Hi. destruct (Nat.eqb_spec j i) as [E|E].
    + subst i. rewrite (bin_number n j [f] 1); [cbn [INR]; ring|lia|]. apply number_yes; [assumption|constructor].
    + rewrite (bin_number n i [f] 0); [cbn [INR]; ring|lia|]. apply number_no; [|constructor]. intros B'.
      destruct (Nat.lt_ge_cases i j); [apply (one_bin n i j f)|apply (one_bin n j i f)]; (assumption || lia).
Qed.

Lemma cumulative_split : forall f l n i, (0 < n)%nat -> cumulative (f :: l) n i = cumulative l n i + cumulative [f] n i.
Proof.
  intros f l n i Hn. rewrite (cumulative_cons f l), (cumulative_cons f []) by assumption.
  assert (Z : cumulative [] n i = 0) by (unfold cumulative, count_upto, count_below; destruct (Nat.eqb i n); reflexivity).
  rewrite Z. ring.
Qed.

Lemma binned_all : forall n l, (0 < n)%nat -> List.Forall (fun f => 0 <= f <= 1) l ->
  Rabs (rsum (map (fun i => (edge n (S i) + edge n i) / 2 * (cumulative l n (S i) - cumulative l n i)) (seq 0 n)) - rsum l) <=
    INR (length l) * / (2 * INR n).
Proof.
  intros n l Hn. induction 1 as [|f l Hf _ IH].
  - rewrite rsum_zero; [cbn; rewrite Rminus_0_r, Rabs_R0; lra|]. intros x Hx. apply in_map_iff in Hx. destruct Hx as (i & <- & _).
    unfold cumulative, count_upto, count_below. destruct (Nat.eqb (S i) n), (Nat.eqb i n); cbn [filter length INR]; ring.
  - pose proof (binned n f Hn Hf) as B.
    rewrite (rsum_map_ext _ _ (fun i => (edge n (S i) + edge n i) / 2 * (cumulative [f] n (S i) - cumulative [f] n i) +
      (edge n (S i) + edge n i) / 2 * (cumulative l n (S i) - cumulative l n i))).
    2: { intros i _. rewrite !(cumulative_split f l) by assumption. ring. }
    rewrite rsum_map_plus. change (rsum (f :: l)) with (f + rsum l). change (length (f :: l)) with (S (length l)). rewrite S_INR.
    set (a := rsum (map (fun i => (edge n (S i) + edge n i) / 2 * (cumulative [f] n (S i) - cumulative [f] n i)) (seq 0 n))) in *.
    set (b := rsum (map (fun i => (edge n (S i) + edge n i) / 2 * (cumulative l n (S i) - cumulative l n i)) (seq 0 n))) in *.
    replace (a + b - (f + rsum l)) with ((a - f) + (b - rsum l)) by ring.
    set (w := / (2 * INR n)) in *. clearbody w. eapply Rle_trans; [apply Rabs_triang|]. lra.
Qed.

Lemma loop_nonneg : forall parts m tol thresh s fuel k sc, scale_loop parts m tol thresh fuel k sc = Some (Finite s) -> 0 <= s.
Proof.
  intros parts m tol thresh s. induction fuel as [|fuel IH]; intros k sc H; [discriminate|]. cbn [scale_loop] in H.
  destruct (next_scale m sc (reduce thresh sc (parts k))) as [new|] eqn:En; [|discriminate].
  destruct (Rlt_dec (tol * new) (Rabs (new - sc))); [apply (IH _ _ H)|]. injection H as <-.
  assert (Ht : 0 < tiny) by (unfold tiny; lra).
  unfold next_scale in En. destruct (Req_EM_T _ 0); [destruct (Rlt_dec _ 0); [injection En as <-; lra|discriminate]|].
  destruct (Rle_dec _ 0) as [L|L]; injection En as <-; lra.
Qed.

Lemma scaled_nonneg : forall parts fuel tau desired s, scaled_by parts fuel tau desired s -> 0 <= s.
Proof.
  intros parts fuel tau [m|] s H; unfold scaled_by in H; [|subst s; lra]. destruct tau as [|t tau].
  - unfold RescaleModel.mean_flux in H. assert (E : s = 0) by congruence. subst s. lra.
  - apply (loop_nonneg _ _ _ _ _ _ _ _ H).
Qed.

Lemma upto_all : forall l, List.Forall (fun f => f <= 1) l -> count_upto l 1 = INR (length l).
Proof.
  intros l H. unfold count_upto. f_equal. f_equal. induction H as [|f l Hf _ IH]; [reflexivity|]. cbn [filter].
  destruct (Rle_dec f 1); [rewrite IH; reflexivity|contradiction].
Qed.

Lemma flux_le_1 : forall s tau, 0 <= s -> List.Forall (fun t => 0 <= t) tau -> List.Forall (fun f => 0 <= f <= 1) (fluxes s tau).
Proof.
  intros s tau Hs H. apply List.Forall_forall. intros f Hf. apply in_map_iff in Hf. destruct Hf as (t & <- & Ht).
  rewrite List.Forall_forall in H. specialize (H t Ht). pose proof (absorbed (s * t) (Rmult_le_pos _ _ Hs H)). pose proof (exp_pos (- (s * t))). lra.
Qed.

Lemma C110_pdf_aux : forall parts fuel tau nbins desired s centres pdf, scaled_by parts fuel tau desired s ->
  List.Forall (fun t => 0 <= t) tau -> flux_pdf parts fuel tau nbins desired = Some (centres, pdf) ->
  Rabs (rsum (map (fun i => nth i centres 0 * nth i pdf 0 / INR nbins) (seq 0 nbins)) - mean (map (fun t => exp (- (s * t))) tau)) <=
    1 / (2 * INR nbins).
Proof.
  intros parts fuel tau nbins desired s centres pdf Hs Hp H.
  assert (Hn : (0 < nbins)%nat) by (destruct nbins; [discriminate H|lia]).
  rewrite (flux_pdf_eq _ _ _ _ _ _ Hn Hs) in H. fold (fluxes s tau). set (l := fluxes s tau) in *.
  assert (Hl : List.Forall (fun f => 0 <= f <= 1) l) by (apply flux_le_1; [apply (scaled_nonneg _ _ _ _ _ Hs)|assumption]).
  assert (Eu : count_upto l 1 = INR (length l)) by (apply upto_all; revert Hl; apply List.Forall_impl; intros; lra).
  destruct (Req_EM_T (count_upto l 1) 0) as [|N]; [discriminate|]. apply pair_inj in H. destruct H as (<- & <-).
  assert (HN : 0 < INR nbins) by (apply lt_0_INR; assumption). rewrite Eu in *.
  assert (HL : 0 < INR (length l)) by (pose proof (pos_INR (length l)); lra).
  rewrite (rsum_map_ext _ _ (fun i => / INR (length l) * ((edge nbins (S i) + edge nbins i) / 2 * (cumulative l nbins (S i) - cumulative l nbins i)))).
  2: { intros i Hi. apply in_seq in Hi. rewrite !map_seq_nth by lia. rewrite edge_width by assumption. field. lra. }
  rewrite rsum_map_scal. unfold mean. pose proof (binned_all nbins l Hn Hl) as B. set (a := rsum (map _ _)) in *.
  replace (/ INR (length l) * a - rsum l / INR (length l)) with (/ INR (length l) * (a - rsum l)) by (field; lra).
  rewrite Rabs_mult, Rabs_pos_eq by (left; apply Rinv_0_lt_compat; assumption).
  replace (1 / (2 * INR nbins)) with (/ INR (length l) * (INR (length l) * / (2 * INR nbins))) by (field; lra).
  apply Rmult_le_compat_l; [left; apply Rinv_0_lt_compat; assumption|assumption].
Qed.

(** ** Total power *)

Lemma mean_linear : forall (A : Type) (f : A -> R) c l, mean (map (fun x => c * f x) l) = c * mean (map f l).
Proof. intros A f c l. unfold mean. rewrite !map_length, rsum_map_scal. unfold Rdiv. ring. Qed.

Lemma C110_power_aux : forall parts fuel tau npix vmax res kf power, 0 < vmax -> rectangular npix tau ->
  List.Forall (List.Forall (fun t => 0 <= t)) tau ->
  flux_power parts fuel tau npix vmax res None false = Some (kf, power) ->
  let F := mean (map (fun t => exp (- t)) (concat tau)) in
  let F2 := mean (map (fun t => exp (- t) ^ 2) (concat tau)) in
  let total := rsum (map (fun k => multiplicity npix k * nth k power 0) (seq 0 (npix / 2 + 1))) in
  0 < F <= 1 /\ total = vmax * (F2 / F ^ 2 - 1) /\ 0 <= total <= vmax * ((1 - F) / F).
Proof.
  intros parts fuel tau npix vmax res kf power Hv Hr Hp H. cbn zeta.
  destruct (flux_power_inv _ _ _ _ _ _ _ _ _ H) as (Ht & Hn & s' & Hs' & Hm). cbn [scaled_by] in Hs'. subst s'.
  destruct (C29_parseval_aux parts fuel tau npix vmax res None 1 kf power Hv Hr eq_refl H) as (P & _). rewrite P. clear P. cbn [mean_used] in *.
  set (l := concat tau) in *. assert (Hl : List.Forall (fun t => 0 <= t) l).
  { apply List.Forall_forall. intros t Hin. apply in_concat in Hin. destruct Hin as (row & Hrow & Hin).
    rewrite List.Forall_forall in Hp. specialize (Hp row Hrow). rewrite List.Forall_forall in Hp. apply Hp. assumption. }
  assert (HL : 0 < INR (length l)).
  { apply lt_0_INR. unfold l. rewrite (concat_length npix) by assumption. destruct tau; [congruence|cbn; lia]. }
  set (F := mean (map (fun t => exp (- t)) l)) in *.
  assert (Hsum : rsum (map (fun t => exp (- t)) l) = F * INR (length l)) by (unfold F, mean; rewrite map_length; field; lra).
  assert (F0 : 0 < F).
  { assert (Q : 0 < rsum (map (fun t => exp (- t)) l)).
    { apply rsum_pos; [destruct l; [cbn in HL; lra|discriminate]|]. intros x Hx. apply in_map_iff in Hx. destruct Hx as (t & <- & _). apply exp_pos. }
    unfold F, mean. rewrite map_length. apply Rdiv_lt_0_compat; assumption. }
  assert (F1 : F <= 1).
  { assert (Q : rsum (map (fun t => exp (- t)) l) <= rsum (map (fun _ => 1) l)).
    { apply rsum_map_le. intros t Hin. rewrite List.Forall_forall in Hl. destruct (absorbed t (Hl t Hin)). lra. }
    rewrite rsum_const, Rmult_1_l, Hsum in Q. apply Rmult_le_reg_r with (INR (length l)); lra. }
  set (F2 := mean (map (fun t => exp (- t) ^ 2) l)).
  assert (Hsum2 : rsum (map (fun t => exp (- t) ^ 2) l) = F2 * INR (length l)) by (unfold F2, mean; rewrite map_length; field; lra).
  assert (L2 : F2 <= F).
  { assert (Q : rsum (map (fun t => exp (- t) ^ 2) l) <= rsum (map (fun t => exp (- t)) l)).
    { apply rsum_map_le. intros t Hin. rewrite List.Forall_forall in Hl. destruct (absorbed t (Hl t Hin)). pose proof (exp_pos (- t)).
      cbn [pow]. rewrite Rmult_1_r. rewrite <- (Rmult_1_r (exp (- t))) at 3. apply Rmult_le_compat_l; lra. }
    rewrite Hsum, Hsum2 in Q. apply Rmult_le_reg_r with (INR (length l)); lra. }
  assert (E : mean (map (fun t => (exp (- (1 * t)) / F - 1) ^ 2) l) = F2 / F ^ 2 - 1).
  { unfold mean. rewrite map_length.
    rewrite (rsum_map_ext _ _ (fun t => / F ^ 2 * exp (- t) ^ 2 + (1 - 2 / F * exp (- t)))).
    2: { intros t _. rewrite Rmult_1_l. field. lra. }
    rewrite rsum_map_plus, rsum_map_scal, rsum_minus, rsum_const, rsum_map_scal, Hsum, Hsum2. field. lra. }
  rewrite E. split; [split; assumption|]. split; [reflexivity|]. split.
  - rewrite <- E. apply Rmult_le_pos; [lra|]. apply mean_nonneg. intros x Hx. apply in_map_iff in Hx. destruct Hx as (t & <- & _). apply pow2_ge_0.
  - apply Rmult_le_compat_l; [lra|]. replace ((1 - F) / F) with (F * / F ^ 2 - 1) by (field; lra). unfold Rdiv.
    assert (I : 0 < / F ^ 2) by (apply Rinv_0_lt_compat, pow_lt; assumption).
    assert (Q : F2 * / F ^ 2 <= F * / F ^ 2) by (apply Rmult_le_compat_r; lra). lra.
Qed.

(** ** A uniform absorber in front *)

Lemma C110_screen_aux : forall parts fuel tau npix vmax res window c, rectangular npix tau ->
  flux_power parts fuel (map (map (fun t => t + c)) tau) npix vmax res None window =
  flux_power parts fuel tau npix vmax res None window.
Proof.
  intros parts fuel tau npix vmax res window c Hr.
  assert (Key : forall u l, exp (- (1 * (u + c))) / mean (map (fun t => exp (- t)) (map (fun t => t + c) l)) =
    exp (- (1 * u)) / mean (map (fun t => exp (- t)) l)).
  { intros u l. rewrite map_map. rewrite (map_ext (fun x => exp (- (x + c))) (fun x => exp (- c) * exp (- x))).
    2: { intros x. rewrite <- exp_plus. f_equal. ring. }
    rewrite mean_linear. replace (exp (- (1 * (u + c)))) with (exp (- c) * exp (- (1 * u))) by (rewrite <- exp_plus; f_equal; ring).
    pose proof (exp_pos (- c)) as Q. unfold Rdiv. rewrite Rinv_mult.
    set (v := / mean _). replace (exp (- c) * exp (- (1 * u)) * (/ exp (- c) * v)) with (exp (- c) * / exp (- c) * (exp (- (1 * u)) * v)) by ring.
    rewrite Rinv_r by lra. ring. }
  destruct tau as [|row tau0] eqn:Et; [reflexivity|]. rewrite <- Et in *.
  destruct npix as [|np] eqn:En; [rewrite Et; reflexivity|]. rewrite <- En in *.
  assert (Hn : (0 < npix)%nat) by lia. assert (Hne : tau <> []) by (rewrite Et; discriminate).
  assert (Hr' : rectangular npix (map (map (fun t => t + c)) tau)).
  { unfold rectangular in *. apply List.Forall_forall. intros r Hin. apply in_map_iff in Hin. destruct Hin as (r0 & <- & Hin).
    rewrite map_length. rewrite List.Forall_forall in Hr. apply Hr. assumption. }
  assert (Pos : forall t : list (list R), t <> [] -> rectangular npix t -> mean_used (concat t) None <> 0).
  { intros t Ht Hrt. cbn [mean_used]. assert (HL : 0 < INR (length (concat t))).
    { apply lt_0_INR. rewrite (concat_length npix) by assumption. destruct t; [congruence|cbn; lia]. }
    apply Rgt_not_eq. unfold mean. rewrite map_length. apply Rdiv_lt_0_compat; [|assumption].
    apply rsum_pos; [destruct (concat t); [cbn in HL; lra|discriminate]|]. intros x Hx. apply in_map_iff in Hx. destruct Hx as (z & <- & _). apply exp_pos. }
  rewrite (flux_power_value parts fuel tau npix vmax res None window 1 Hne Hn Hr eq_refl (Pos tau Hne Hr)).
  assert (Hne' : map (map (fun t => t + c)) tau <> []) by (rewrite Et; discriminate).
  rewrite (flux_power_value parts fuel _ npix vmax res None window 1 Hne' Hn Hr' eq_refl (Pos _ Hne' Hr')).
  f_equal. f_equal. apply map_ext. intros k. f_equal. unfold plain_power. f_equal. f_equal. rewrite map_map. apply map_ext. intros r.
  f_equal. unfold contrast. rewrite map_map. apply map_ext. intros u. f_equal. cbn [mean_used]. rewrite <- concat_map. apply Key.
Qed.

(** ** Effective and mean optical depth *)

Lemma exp_tangent : forall a x, exp (- a) * (1 + a - x) <= exp (- x).
Proof.
  intros a x. replace (exp (- x)) with (exp (- a) * exp (a - x)) by (rewrite <- exp_plus; f_equal; ring).
  apply Rmult_le_compat_l; [left; apply exp_pos|]. replace (1 + a - x) with (1 + (a - x)) by ring.
  destruct (Req_dec (a - x) 0) as [E|E]; [rewrite E, exp_0; lra|]. left. apply exp_ineq1. assumption.
Qed.

Lemma C110_effective_aux : forall tau, tau <> [] -> exp (- mean tau) <= mean (map (fun t => exp (- t)) tau).
Proof.
  intros tau Hne. set (a := mean tau). assert (HL : 0 < INR (length tau)) by (apply lt_0_INR; destruct tau; [congruence|cbn; lia]).
  assert (Q : rsum (map (fun t => exp (- a) * (1 + a - t)) tau) <= rsum (map (fun t => exp (- t)) tau)).
  { apply rsum_map_le. intros t _. apply exp_tangent. }
  rewrite rsum_map_scal, (rsum_minus _ (fun _ => 1 + a) (fun t => t)), rsum_const, map_id in Q.
  assert (E : rsum tau = a * INR (length tau)) by (unfold a, mean; field; lra). rewrite E in Q.
  unfold mean. rewrite map_length. apply Rmult_le_reg_r with (INR (length tau)); [assumption|].
  unfold Rdiv. rewrite Rmult_assoc, Rinv_l by lra. lra.
Qed.

(** ** Widths without absorption at the ends *)

Lemma C110_exact_aux : forall dvbin light line npix tau, 0 < light -> tau <> [] -> (0 < npix)%nat -> rectangular npix tau ->
  List.Forall (fun row => hd 0 row = 0 /\ last row 0 = 0) tau ->
  mean (equivalent_width dvbin light line tau) =
  line * (INR npix * dvbin / (light / 100000)) * (1 - mean (map (fun t => exp (- t)) (concat tau))).
Proof.
  intros dvbin light line npix tau Hl Hne Hn Hr H0.
  assert (HT : 0 < INR (length tau)) by (apply lt_0_INR; destruct tau; [congruence|cbn; lia]).
  assert (HN : 0 < INR npix) by (apply lt_0_INR; assumption). set (step := dvbin / (light / 100000) * line).
  unfold equivalent_width. fold step. unfold mean at 1. rewrite map_length.
  rewrite (rsum_map_ext _ _ (fun row => step * rsum (map (fun t => 1 - exp (- t)) row))).
  2: { intros row Hin. unfold rectangular in Hr. rewrite List.Forall_forall in Hr, H0. specialize (Hr row Hin). destruct (H0 row Hin) as (A & B).
       destruct row as [|x row]; [cbn in Hr; lia|]. rewrite trapz_sum by discriminate. cbn [hd] in A. subst x.
       replace (last (map (fun t => 1 - exp (- t)) (0 :: row)) 0) with (1 - exp (- last (0 :: row) 0)).
       - rewrite B. cbn [map hd]. rewrite Ropp_0, exp_0. f_equal. lra.
       - clear. generalize 0 at 1 3 as x. induction row as [|y row IH]; intros x; [reflexivity|]. apply (IH y). }
  rewrite rsum_map_scal, <- (rsum_concat (fun t => 1 - exp (- t))), rsum_minus, rsum_const. unfold mean.
  rewrite map_length, (concat_length npix) by assumption. rewrite mult_INR. unfold step. field. lra.
Qed.
