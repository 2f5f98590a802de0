(** Proofs about the rescaling and the main program of the C extractor's statistics. *)
From Coq Require Import ZArith List Lia Reals Lra Psatz.
From Verif Require Import AbsorptionSpec AbsorptionProofs RescaleModel RescaleSpec RescaleProofs.
From Verif Require Import CstatModel CstatSpec CstatProofs CstatProofs2.
Import ListNotations.
Local Open Scope R_scope.

Definition c_newton (u : list R) (target s : R) : R :=
  let new := s + (E u s - target * INR (length u)) / D u s in
  if Rlt_dec new 0 then 0 else new.

Lemma fold_E : forall u s acc, fold_left (fun a t => a + exp (- s * t)) u acc = acc + E u s.
Proof.
  unfold E, rsum. induction u as [|t u IH]; intros s acc; cbn [fold_left map fold_right]; [ring|].
  rewrite IH. replace (- s * t) with (- (s * t)) by ring. ring.
Qed.

Lemma fold_D : forall u s acc, fold_left (fun a t => a + exp (- s * t) * t) u acc = acc + D u s.
Proof.
  unfold D, rsum. induction u as [|t u IH]; intros s acc; cbn [fold_left map fold_right]; [ring|].
  rewrite IH. replace (- s * t) with (- (s * t)) by ring. ring.
Qed.

Lemma c_next_newton : forall u target s, absorbing u -> c_next_scale u target s = Some (c_newton u target s).
Proof.
  intros u target s H. unfold c_next_scale, c_newton. cbv zeta. rewrite fold_E, fold_D, !Rplus_0_l.
  pose proof (D_pos u s H). destruct (Req_EM_T (D u s) 0); [lra|reflexivity].
Qed.

Lemma c_newton_nonneg : forall u target s, 0 <= c_newton u target s.
Proof. intros. unfold c_newton. destruct (Rlt_dec _ 0); lra. Qed.

Lemma c_step : forall u target tol fuel s, absorbing u -> c_scale_loop u target tol (S fuel) s =
  if Rlt_dec (tol * c_newton u target s) (Rabs (c_newton u target s - s))
  then c_scale_loop u target tol fuel (c_newton u target s) else Some (CFinite (c_newton u target s)).
Proof. intros u target tol fuel s H. cbn [c_scale_loop]. rewrite c_next_newton by assumption. reflexivity. Qed.

Section Solve.
Variable u : list R.
Variable target sstar : R.
Hypothesis Hu : absorbing u.
Hypothesis Hsol : E u sstar = target * INR (length u).

Let f s := E u s - target * INR (length u).

Lemma c_below_iff : forall s, s <= sstar <-> 0 <= f s.
Proof.
  intros s. unfold f. rewrite <- Hsol. split; intros H.
  - destruct (Rle_lt_or_eq_dec s sstar H) as [L| ->]; [|lra]. pose proof (E_decreasing u s sstar Hu L). lra.
  - destruct (Rle_lt_dec s sstar) as [|L]; [assumption|]. pose proof (E_decreasing u sstar s Hu L). lra.
Qed.

Lemma raw_below : forall s, s + f s / D u s <= sstar.
Proof.
  intros s. apply c_below_iff. unfold f at 1. pose proof (tangent u s (s + f s / D u s)) as T.
  pose proof (D_pos u s Hu) as P.
  replace ((s + f s / D u s - s) * D u s) with (f s) in T by (field; lra).
  unfold f in T at 1. unfold f in *. lra.
Qed.

Hypothesis Hreach : 0 < sstar.

Lemma c_newton_below : forall s, c_newton u target s <= sstar.
Proof. intros s. unfold c_newton. fold (f s). pose proof (raw_below s). destruct (Rlt_dec _ 0); lra. Qed.

Lemma c_newton_increases : forall s, 0 <= s -> s <= sstar -> s <= c_newton u target s.
Proof.
  intros s Hs H. apply c_below_iff in H. pose proof (D_pos u s Hu) as P.
  assert (0 <= f s / D u s) by (apply Rmult_le_pos; [assumption|left; apply Rinv_0_lt_compat; assumption]).
  unfold c_newton. fold (f s). destruct (Rlt_dec _ 0); lra.
Qed.

(** At zero the step is positive. *)
Lemma c_newton_zero : 0 < c_newton u target 0.
Proof.
  pose proof (D_pos u 0 Hu) as P. pose proof (E_decreasing u 0 sstar Hu Hreach) as Q. rewrite Hsol in Q.
  assert (0 < f 0 / D u 0) by (apply Rmult_lt_0_compat; [unfold f; lra|apply Rinv_0_lt_compat; assumption]).
  unfold c_newton. fold (f 0). destruct (Rlt_dec _ 0); lra.
Qed.

Lemma c_residual : forall tol s, 0 < tol < 1 -> 0 <= s ->
  Rabs (c_newton u target s - s) <= tol * c_newton u target s ->
  0 <= f (c_newton u target s) /\ f (c_newton u target s) <= tol / (1 - tol) * INR (length u).
Proof.
  intros tol s Ht Hs Hstop. set (s' := c_newton u target s) in *.
  pose proof (c_newton_nonneg u target s) as Hp. fold s' in Hp.
  pose proof (c_newton_below s) as Hb. fold s' in Hb.
  split; [apply c_below_iff; assumption|].
  pose proof (pos_INR (length u)) as Hlen.
  assert (Htt : tol <= tol / (1 - tol)).
  { unfold Rdiv. rewrite <- (Rmult_1_r tol) at 1. apply Rmult_le_compat_l; [lra|].
    rewrite <- Rinv_1. apply Rinv_le_contravar; lra. }
  destruct (Rle_lt_dec s s') as [Hup|Hdown].
  - rewrite Rabs_pos_eq in Hstop by lra.
    assert (Hss : s <= sstar) by lra. apply c_below_iff in Hss.
    pose proof (D_pos u s Hu) as P. pose proof (sD_bound u s ltac:(lra) (proj1 Hu)) as B.
    assert (Hfs : f s = (s' - s) * D u s).
    { unfold s', c_newton. fold (f s).
      assert (0 <= f s / D u s) by (apply Rmult_le_pos; [assumption|left; apply Rinv_0_lt_compat; assumption]).
      destruct (Rlt_dec _ 0); [lra|]. field. lra. }
    assert (Hf : f s' <= f s).
    { unfold f. destruct (Rle_lt_or_eq_dec s s' Hup) as [L| <-]; [|lra].
      pose proof (E_decreasing u s s' Hu L). lra. }
    apply Rle_trans with (f s); [assumption|]. rewrite Hfs.
    assert (Hs1 : s' * (1 - tol) <= s) by lra.
    assert (Hs2 : s' - s <= tol / (1 - tol) * s).
    { apply Rmult_le_reg_r with (1 - tol); [lra|].
      replace (tol / (1 - tol) * s * (1 - tol)) with (tol * s) by (field; lra).
      apply Rle_trans with (tol * s' * (1 - tol)); [|nra].
      apply Rmult_le_compat_r; lra. }
    apply Rle_trans with (tol / (1 - tol) * s * D u s).
    + apply Rmult_le_compat_r; lra.
    + rewrite Rmult_assoc. apply Rmult_le_compat_l; [|assumption]. lra.
  - rewrite Rabs_left1 in Hstop by lra.
    assert (Hneg : f s < 0).
    { apply Rnot_le_lt. intros C. apply c_below_iff in C. pose proof (c_newton_increases s Hs C). fold s' in H. lra. }
    pose proof (tangent u s' s) as T. unfold f in *.
    pose proof (sD_bound u s' ltac:(lra) (proj1 Hu)) as B. pose proof (D_pos u s' Hu).
    assert ((s - s') * D u s' <= tol * s' * D u s') by (apply Rmult_le_compat_r; lra).
    assert (tol * (s' * D u s') <= tol * INR (length u)) by (apply Rmult_le_compat_l; lra).
    assert (tol * INR (length u) <= tol / (1 - tol) * INR (length u)) by (apply Rmult_le_compat_r; lra).
    lra.
Qed.

End Solve.

Lemma C57_converges_aux : forall u target tol sstar, absorbing u -> mean_transmission sstar u = target ->
  0 < sstar -> 0 < tol < 1 ->
  exists enough s, (forall fuel, (enough <= fuel)%nat -> c_mean_flux u target tol fuel = Some (CFinite s)) /\
    0 <= s <= sstar /\ target <= mean_transmission s u <= target + tol / (1 - tol).
Proof.
  intros u target tol sstar Hu Hs Hp Ht.
  pose proof (absorbing_nonempty _ Hu) as Hne.
  assert (Hsol := proj1 (proj1 (mean_E sstar u target Hne)) Hs).
  pose (good := fun r => 0 <= r <= sstar /\ target <= mean_transmission r u <= target + tol / (1 - tol)).
  assert (Done : forall s, 0 <= s -> ~ tol * c_newton u target s < Rabs (c_newton u target s - s) ->
     good (c_newton u target s)).
  { intros s H0 Hstop.
    destruct (c_residual u target sstar Hu Hsol Hp tol s Ht H0) as (R1 & R2); [lra|].
    split; [split; [apply c_newton_nonneg|apply c_newton_below; assumption]|].
    destruct (mean_E (c_newton u target s) u target Hne) as (_ & M1 & M2).
    split; [apply M1; lra|apply M2]. lra. }
  (* from any positive factor below the solution *)
  assert (G : forall low, 0 < low -> forall n s, low <= s -> s <= sstar -> sstar - s <= INR n * (tol * low) ->
     exists r, (forall fuel, (S n <= fuel)%nat -> c_scale_loop u target tol fuel s = Some (CFinite r)) /\ good r).
  { intros low Hlow. induction n as [|n IH]; intros s H1 H2 H3.
    - simpl in H3. assert (s = sstar) by lra.
      pose proof (c_newton_increases u target sstar Hu Hsol s ltac:(lra) H2) as U.
      pose proof (c_newton_below u target sstar Hu Hsol Hp s) as V.
      assert (X : ~ tol * c_newton u target s < Rabs (c_newton u target s - s)).
      { replace (c_newton u target s) with s by lra. rewrite Rminus_diag_eq, Rabs_R0 by reflexivity. nra. }
      exists (c_newton u target s). split.
      + intros [|fuel] Hf; [lia|]. rewrite c_step by assumption. destruct (Rlt_dec _ _); [contradiction|reflexivity].
      + apply Done; [lra|assumption].
    - pose proof (c_newton_increases u target sstar Hu Hsol s ltac:(lra) H2) as U.
      pose proof (c_newton_below u target sstar Hu Hsol Hp s) as V.
      destruct (Rlt_dec (tol * c_newton u target s) (Rabs (c_newton u target s - s))) as [L|L].
      + rewrite Rabs_pos_eq in L by lra.
        assert (tol * low <= tol * c_newton u target s) by (apply Rmult_le_compat_l; lra).
        destruct (IH (c_newton u target s)) as (r & Hr & Hr2); [lra|lra|rewrite S_INR in H3; lra|].
        exists r. split; [|assumption]. intros [|fuel] Hf; [lia|]. rewrite c_step by assumption.
        destruct (Rlt_dec _ _) as [_|C]; [apply Hr; lia|]. exfalso. apply C. rewrite Rabs_pos_eq by lra. assumption.
      + exists (c_newton u target s). split.
        * intros [|fuel] Hf; [lia|]. rewrite c_step by assumption. destruct (Rlt_dec _ _); [contradiction|reflexivity].
        * apply Done; [lra|assumption]. }
  assert (G2 : forall s, 0 < s -> s <= sstar ->
     exists n r, (forall fuel, (n <= fuel)%nat -> c_scale_loop u target tol fuel s = Some (CFinite r)) /\ good r).
  { intros s H1 H2. assert (Htp : 0 < tol * s) by (apply Rmult_lt_0_compat; lra).
    assert (Q : 0 <= sstar / (tol * s)).
    { apply Rmult_le_pos; [lra|left; apply Rinv_0_lt_compat; assumption]. }
    destruct (nat_above (sstar / (tol * s)) Q) as (n & N1 & N2).
    destruct (G s H1 n s (Rle_refl s) H2) as (r & Hr & Hg).
    { apply Rmult_le_compat_r with (r := tol * s) in N1; [|lra].
      replace (sstar / (tol * s) * (tol * s)) with sstar in N1 by (field; lra). lra. }
    exists (S n), r. split; assumption. }
  (* one step from a factor: stop, or go on from a factor between 0 and the solution *)
  assert (G3 : forall s, 0 <= s -> (0 < c_newton u target s ->
       exists n r, (forall fuel, (n <= fuel)%nat -> c_scale_loop u target tol fuel s = Some (CFinite r)) /\ good r)).
  { intros s H0 Hpos.
    destruct (Rlt_dec (tol * c_newton u target s) (Rabs (c_newton u target s - s))) as [L|L].
    - destruct (G2 (c_newton u target s) Hpos (c_newton_below u target sstar Hu Hsol Hp s)) as (n & r & Hr & Hg).
      exists (S n), r. split; [|assumption]. intros [|fuel] Hf; [lia|]. rewrite c_step by assumption.
      destruct (Rlt_dec _ _); [apply Hr; lia|contradiction].
    - exists 1%nat, (c_newton u target s). split.
      + intros [|fuel] Hf; [lia|]. rewrite c_step by assumption. destruct (Rlt_dec _ _); [contradiction|reflexivity].
      + apply Done; assumption. }
  unfold c_mean_flux.
  destruct (Rle_lt_or_eq_dec 0 (c_newton u target 100) (c_newton_nonneg _ _ _)) as [Hpos|Hz].
  - apply G3; [lra|assumption].
  - destruct (G3 0 (Rle_refl 0) (c_newton_zero u target sstar Hu Hsol Hp)) as (n & r & Hr & Hg).
    exists (S n), r. split; [|assumption]. intros [|fuel] Hf; [lia|]. rewrite c_step by assumption. rewrite <- Hz.
    destruct (Rlt_dec _ _) as [_|C]; [apply Hr; lia|]. exfalso. apply C. rewrite Rmult_0_r.
    rewrite Rabs_left by lra. lra.
Qed.

(** A target which only emission could reach. *)
Lemma C57_emission_aux : forall u target tol fuel, absorbing u -> 1 <= target -> 0 < tol -> (2 <= fuel)%nat ->
  c_mean_flux u target tol fuel = Some (CFinite 0).
Proof.
  intros u target tol fuel Hu Ht Htol Hf.
  assert (E0 : E u 0 = INR (length u)).
  { unfold E, rsum. clear. induction u as [|t u IH]; [reflexivity|]. cbn [map fold_right length]. rewrite IH, S_INR.
    rewrite Rmult_0_l, Ropp_0, exp_0. ring. }
  pose proof (pos_INR (length u)) as PL.
  assert (Z0 : forall s, 0 <= s -> c_newton u target s = 0).
  { intros s Hs. unfold c_newton. destruct (Rlt_dec _ 0) as [|N]; [reflexivity|].
    pose proof (D_pos u s Hu) as P. pose proof (tangent u s 0) as T. rewrite E0 in T.
    assert (X : (E u s - target * INR (length u)) / D u s <= - s).
    { apply Rmult_le_reg_r with (D u s); [assumption|]. unfold Rdiv. rewrite Rmult_assoc, Rinv_l by lra. nra. }
    lra. }
  destruct fuel as [|[|fuel]]; try lia. unfold c_mean_flux. rewrite !c_step by assumption. rewrite (Z0 100) by lra.
  destruct (Rlt_dec _ _) as [_|C].
  - rewrite (Z0 0) by lra. destruct (Rlt_dec _ _) as [C|_]; [|reflexivity].
    rewrite Rminus_diag_eq, Rabs_R0 in C by reflexivity. lra.
  - exfalso. apply C. rewrite Rabs_left by lra. lra.
Qed.

Lemma C57_transparent_aux : forall u target tol fuel, Forall (fun t => t = 0) u -> target <= 1 -> (1 <= fuel)%nat ->
  c_mean_flux u target tol fuel = Some CNotFinite.
Proof.
  intros u target tol [|fuel] Hu Ht Hf; [lia|]. unfold c_mean_flux. cbn [c_scale_loop].
  assert (X : c_next_scale u target 100 = None).
  { unfold c_next_scale. cbv zeta. rewrite fold_E, fold_D, !Rplus_0_l.
    assert (E u 100 = INR (length u) /\ D u 100 = 0) as (A & B).
    { unfold E, D, rsum. clear - Hu. induction Hu as [|t u -> _ (IH1 & IH2)]; [split; reflexivity|].
      cbn [map fold_right length]. rewrite IH1, IH2, S_INR, Rmult_0_r, Ropp_0, exp_0. split; ring. }
    rewrite A, B. destruct (Req_EM_T 0 0); [|congruence].
    destruct (Rlt_dec _ 0) as [C|_]; [|reflexivity]. pose proof (pos_INR (length u)). exfalso. nra. }
  rewrite X. reflexivity.
Qed.

(** ** The main program *)

Lemma length_firstn_data : forall n (l : list R), (n <= length l)%nat -> length (firstn n l) = n.
Proof. intros. apply firstn_length_le. assumption. Qed.

Definition zero_mode (nbins : nat) : nat := if Nat.even nbins then Nat.div nbins 2 else 0%nat.

Lemma pdf_scaled : forall s tau d, is_pdf s (map (fun t => t * s) tau) d -> is_pdf (s * s) tau d.
Proof.
  intros s tau d (L & H). split; [assumption|]. intros b Hb. destruct (H b Hb) as (n & C & V).
  rewrite map_length in V. exists n. split; [|assumption]. clear - C.
  remember (map (fun t => t * s) tau) as l eqn:El. revert tau El.
  induction C as [|x l n P C IH|x l n P C IH]; intros [|t tau] El; try discriminate; [constructor| |];
    injection El as -> ->; [apply count_yes|apply count_no]; try (apply IH; reflexivity).
  - unfold transmission_in in *. replace (s * (t * s)) with (s * s * t) in P by ring. exact P.
  - unfold transmission_in in *. replace (s * (t * s)) with (s * s * t) in P by ring. exact P.
Qed.

Lemma C49_main_aux : forall fft junk fuel o f power pdf,
  (forall j, length (junk j) = (Nat.div (f_nbins f + 1) 2 - 1)%nat) -> (1 <= f_nbins f)%nat ->
  statistic_main fft junk fuel o f = Written power pdf ->
  let statistic := fold_left Z.add (o_stats o) 0%Z in
  let used := if Nat.eqb (o_used o) 0 then f_numlos f else o_used o in
  let tau := firstn (f_nbins f * used) (f_data f) in
  let tau_eff := 0.0023 * Rpower (1 + f_redshift f) 3.65 in
  length tau = (f_nbins f * used)%nat /\
  exists s,
    (if o_norescale o then s = 1 else c_mean_flux tau (exp (- tau_eff)) (/ 100000) fuel = Some (CFinite s)) /\
    match power with
    | Some p => Z.testbit statistic 1 = true /\
        is_power fft (if Nat.even (f_nbins f) then Nat.div (f_nbins f) 2 else 0%nat) s tau_eff used (f_nbins f) tau p
    | None => Z.testbit statistic 1 = false
    end /\
    match pdf with
    | Some d => Z.testbit statistic 0 = true /\ rsum d = 20 /\
        is_pdf (if Z.testbit statistic 1 then s * s else s) tau d
    | None => Z.testbit statistic 0 = false
    end.
Proof.
  intros fft junk fuel o f power pdf Hj Hnb H. cbv zeta. unfold statistic_main in H. cbv zeta in H.
  set (st := fold_left Z.add (o_stats o) 0%Z) in *.
  destruct (negb (Z.testbit st 0 || Z.testbit st 1)) eqn:Eb; [discriminate|].
  set (used := if Nat.eqb (o_used o) 0 then f_numlos f else o_used o) in *.
  destruct (Nat.eqb_spec (f_numlos f) 0) as [|Hl]; [discriminate|].
  destruct (Nat.ltb_spec (length (f_data f)) (f_nbins f * used)) as [|Hd]; [discriminate|].
  set (tau := firstn (f_nbins f * used) (f_data f)) in *.
  fold (tau_eff_of (f_redshift f)). set (te := tau_eff_of (f_redshift f)) in *.
  assert (Hused : (1 <= used)%nat).
  { unfold used. destruct (Nat.eqb_spec (o_used o) 0); lia. }
  assert (Lt : length tau = (f_nbins f * used)%nat) by (apply length_firstn_data; assumption).
  assert (Hne : tau <> []).
  { intros X. rewrite X in Lt. cbn [length] in Lt. nia. }
  split; [assumption|].
  set (scale := if o_norescale o then Some (CFinite 1) else c_mean_flux tau (exp (- te)) (/ 100000) fuel) in *.
  destruct scale as [[s|]|] eqn:Es; try discriminate.
  exists s. split.
  { unfold scale in Es. destruct (o_norescale o); [injection Es as <-; reflexivity|assumption]. }
  destruct (Z.testbit st 1) eqn:E1.
  - destruct (le_lt_dec 5 (f_nbins f)) as [G|G].
    + destruct (C49_power_aux fft junk tau s te used (f_nbins f) Hused G Hj) as (p & Ep & Hp). rewrite Ep in H.
      destruct (Z.testbit st 0) eqn:E0.
      * destruct (C49_pdf_aux (map (fun t => t * s) tau) s) as (d & Ed & Hd1 & Hd2 & _).
        { intros X. apply map_eq_nil in X. contradiction. }
        rewrite Ed in H. injection H as <- <-. split; [split; [reflexivity|exact Hp]|].
        split; [reflexivity|]. split; [assumption|]. apply pdf_scaled. assumption.
      * injection H as <- <-. split; [split; [reflexivity|exact Hp]|reflexivity].
    + pose proof (C49_power_short_aux fft junk tau s te used (f_nbins f) Hused G Hj) as X.
      destruct (calc_power_spectra fft junk tau s te used (f_nbins f)) as [[p|] t']; cbn [fst] in X; discriminate.
  - destruct (Z.testbit st 0) eqn:E0.
    + destruct (C49_pdf_aux tau s Hne) as (d & Ed & Hd1 & Hd2 & _). rewrite Ed in H. injection H as <- <-.
      split; [reflexivity|]. split; [reflexivity|]. split; assumption.
    + discriminate Eb.
Qed.

(** The program finishes. *)
Lemma C49_total_aux : forall fft junk o f sstar,
  (forall j, length (junk j) = (Nat.div (f_nbins f + 1) 2 - 1)%nat) -> (5 <= f_nbins f)%nat -> (1 <= f_numlos f)%nat ->
  let statistic := fold_left Z.add (o_stats o) 0%Z in
  let used := if Nat.eqb (o_used o) 0 then f_numlos f else o_used o in
  let tau := firstn (f_nbins f * used) (f_data f) in
  let tau_eff := 0.0023 * Rpower (1 + f_redshift f) 3.65 in
  Z.testbit statistic 0 = true \/ Z.testbit statistic 1 = true ->
  (f_nbins f * used <= length (f_data f))%nat -> absorbing tau ->
  0 < sstar -> mean_transmission sstar tau = exp (- tau_eff) ->
  exists enough, forall fuel, (enough <= fuel)%nat -> exists power pdf, statistic_main fft junk fuel o f = Written power pdf.
Proof.
  intros fft junk o f sstar Hj Hnb Hl. cbv zeta.
  set (st := fold_left Z.add (o_stats o) 0%Z).
  set (used := if Nat.eqb (o_used o) 0 then f_numlos f else o_used o).
  set (tau := firstn (f_nbins f * used) (f_data f)).
  fold (tau_eff_of (f_redshift f)). set (te := tau_eff_of (f_redshift f)).
  intros Hb Hd Ha Hp Hs.
  assert (Hused : (1 <= used)%nat).
  { unfold used. destruct (Nat.eqb_spec (o_used o) 0); lia. }
  pose proof (absorbing_nonempty _ Ha) as Hne.
  assert (After : forall s, exists power pdf, match
     (if Z.testbit st 1 then
       match calc_power_spectra fft junk tau s te used (f_nbins f) with
       | (Some p, tau') => Some (Some p, tau') | (None, _) => None end
      else Some (None, tau)) with
     | None => Undefined
     | Some (power, tau') =>
          if Z.testbit st 0 then
            match calc_pdf tau' s with Some d => Written power (Some d) | None => Undefined end
          else Written power None
     end = Written power pdf).
  { intros s. destruct (Z.testbit st 1).
    - destruct (C49_power_aux fft junk tau s te used (f_nbins f) Hused Hnb Hj) as (p & Ep & _). rewrite Ep.
      destruct (Z.testbit st 0); [|eauto].
      destruct (C49_pdf_aux (map (fun t => t * s) tau) s) as (d & Ed & _).
      { intros X. apply map_eq_nil in X. contradiction. }
      rewrite Ed. eauto.
    - destruct (Z.testbit st 0); [|eauto]. destruct (C49_pdf_aux tau s Hne) as (d & Ed & _). rewrite Ed. eauto. }
  destruct (C57_converges_aux tau (exp (- te)) (/ 100000) sstar Ha Hs Hp ltac:(lra)) as (n & s & Hn & _).
  exists n. intros fuel Hf. unfold statistic_main. cbv zeta. fold st used tau te.
  destruct (negb (Z.testbit st 0 || Z.testbit st 1)) eqn:Eb.
  { exfalso. destruct Hb as [X|X]; rewrite X in Eb; [discriminate|]. rewrite Bool.orb_true_r in Eb. discriminate. }
  destruct (Nat.eqb_spec (f_numlos f) 0) as [|_]; [lia|].
  destruct (Nat.ltb_spec (length (f_data f)) (f_nbins f * used)) as [|_]; [lia|].
  rewrite (Hn fuel Hf). destruct (o_norescale o); apply After.
Qed.

(** The number of sightlines asked for can exceed the number in the file. *)
Lemma C49_columns_aux : forall fft junk fuel z nbins numlos extra taus cols, (1 <= nbins)%nat -> (1 <= numlos)%nat ->
  length taus = (nbins * numlos)%nat -> length cols = (nbins * numlos)%nat -> (extra <= numlos)%nat ->
  exists d, statistic_main fft junk fuel (mkOptions [1%Z] (numlos + extra) true) (mkFile z nbins numlos (taus ++ cols)) =
      Written None (Some d) /\
    is_pdf 1 (taus ++ firstn (nbins * extra) cols) d.
Proof.
  intros fft junk fuel z nbins numlos extra taus cols Hnb Hl Ht Hc He.
  unfold statistic_main. cbn [o_stats o_used o_norescale f_numlos f_nbins f_data f_redshift fold_left].
  change (Z.testbit (0 + 1) 0) with true. change (Z.testbit (0 + 1) 1) with false. cbv zeta. cbn [orb negb].
  destruct (Nat.eqb_spec numlos 0); [lia|]. destruct (Nat.eqb_spec (numlos + extra) 0); [lia|].
  destruct (Nat.ltb_spec (length (taus ++ cols)) (nbins * (numlos + extra))) as [C|_].
  { rewrite app_length in C. nia. }
  assert (X : firstn (nbins * (numlos + extra)) (taus ++ cols) = taus ++ firstn (nbins * extra) cols).
  { rewrite firstn_app. replace (nbins * (numlos + extra) - length taus)%nat with (nbins * extra)%nat by nia.
    rewrite firstn_all2 by nia. reflexivity. }
  rewrite X. destruct (C49_pdf_aux (taus ++ firstn (nbins * extra) cols) 1) as (d & Ed & Hd & _).
  { destruct taus; [cbn [length] in Ht; nia|discriminate]. }
  rewrite Ed. exists d. split; [reflexivity|assumption].
Qed.

(** -s 1 given twice asks for the power spectrum and not for the PDF; -s 2 twice for nothing. *)
Lemma C49_repeat_aux : forall fft junk fuel u r f,
  statistic_main fft junk fuel (mkOptions [1%Z; 1%Z] u r) f = statistic_main fft junk fuel (mkOptions [2%Z] u r) f /\
  statistic_main fft junk fuel (mkOptions [2%Z; 2%Z] u r) f = ErrorExit.
Proof. intros. split; reflexivity. Qed.

(** A constant spectrum of even length: its mean does not appear in the power spectrum. *)
Lemma C49_zero_aux : forall fft junk m t s tau_eff, (3 <= m)%nat ->
  (forall j, length (junk j) = (Nat.div (2 * m + 1) 2 - 1)%nat) ->
  (forall c, fft (repeat c (2 * m)) 0%nat = (INR (2 * m) * c, 0)) ->
  (forall c, fft (repeat c (2 * m)) m = (0, 0)) ->
  exists p, fst (calc_power_spectra fft junk (repeat t (2 * m)) s tau_eff 1 (2 * m)) = Some p /\
    nth 0 p 0 = 0 /\
    mode_power (2 * m) (fft (contrast s tau_eff (repeat t (2 * m))) 0%nat) =
      (exp (- (s * t)) / exp (- tau_eff) - 1) ^ 2.
Proof.
  intros fft junk m t s tau_eff Hm Hj F0 Fm.
  destruct (C49_power_aux fft junk (repeat t (2 * m)) s tau_eff 1 (2 * m) ltac:(lia) ltac:(lia) Hj) as (p & Ep & Hp).
  exists p. rewrite Ep. split; [reflexivity|].
  assert (C : contrast s tau_eff (repeat t (2 * m)) = repeat (exp (- (s * t)) / exp (- tau_eff) - 1) (2 * m)).
  { unfold contrast. generalize (2 * m)%nat. clear. induction n as [|n IH]; [reflexivity|]. cbn [repeat map]. rewrite IH. reflexivity. }
  destruct Hp as (_ & H0 & _). split.
  - rewrite H0. replace (Nat.even (2 * m)) with true by (symmetry; apply Nat.even_spec; exists m; reflexivity).
    replace (Nat.div (2 * m) 2) with m by (rewrite Nat.mul_comm, Nat.div_mul; lia).
    unfold sightline_mean, sightline. cbn [seq map]. change (0 * (2 * m))%nat with 0%nat. rewrite skipn_O.
    rewrite firstn_all2 by (rewrite repeat_length; lia). rewrite C, Fm. unfold rsum. simpl. unfold Rdiv. ring.
  - rewrite C, F0. unfold mode_power. cbn [fst snd].
    assert (0 < INR (2 * m)) by (apply lt_0_INR; lia). field. split; [|lra].
    pose proof (exp_pos (- tau_eff)). lra.
Qed.

Lemma count_all : forall (P : R -> Prop) l, Forall P l -> forall n, count_of P l n -> n = length l.
Proof.
  intros P l H n C. induction C as [|x l n Px C IH|x l n Px C IH]; [reflexivity| |]; inversion H; subst.
  - cbn [length]. f_equal. apply IH. assumption.
  - contradiction.
Qed.

Lemma count_none : forall (P : R -> Prop) l, Forall (fun x => ~ P x) l -> forall n, count_of P l n -> n = 0%nat.
Proof.
  intros P l H n C. induction C as [|x l n Px C IH|x l n Px C IH]; [reflexivity| |]; inversion H; subst.
  - contradiction.
  - apply IH. assumption.
Qed.

Lemma exp_neg_upper : forall x, 0 <= x -> exp (- x) <= 1 / (1 + x).
Proof.
  intros x Hx. rewrite exp_Ropp. unfold Rdiv. rewrite Rmult_1_l. apply Rinv_le_contravar; [lra|]. apply exp_above_line.
Qed.

Lemma exp4 : 20 < exp 4.
Proof.
  assert (H : 3 / 2 <= exp (/ 2)) by (pose proof (exp_above_line (/ 2)); lra).
  replace 4 with (/2 + /2 + (/2 + /2) + (/2 + /2 + (/2 + /2))) by field. rewrite !exp_plus.
  set (e := exp (/ 2)) in *. assert (9 / 4 <= e * e) by nra. assert (81 / 16 <= e * e * (e * e)) by nra. nra.
Qed.

Lemma C49_twice_aux : exists f o s n, forall fft junk, (forall j, length (junk j) = 2%nat) ->
  forall fuel, (n <= fuel)%nat -> exists p d,
    statistic_main fft junk fuel o f = Written (Some p) (Some d) /\
    c_mean_flux (f_data f) (exp (- (0.0023 * Rpower (1 + f_redshift f) 3.65))) (/ 100000) fuel = Some (CFinite s) /\
    Forall (fun t => 0.99 <= exp (- (s * t))) (f_data f) /\ ~ is_pdf s (f_data f) d /\ nth 0 d 0 = 20.
Proof.
  set (T := / 1000000). set (tau := repeat T 5).
  assert (Ha : absorbing tau).
  { unfold tau, T. cbn [repeat]. split; [repeat constructor; lra|]. constructor. lra. }
  pose proof (absorbing_nonempty _ Ha) as Hne.
  set (te := 0.0023 * Rpower (1 + 0) 3.65).
  assert (Te : te = 0.0023).
  { unfold te. rewrite Rplus_0_r. unfold Rpower. rewrite ln_1, Rmult_0_r, exp_0. ring. }
  set (sstar := te / T).
  assert (Mt : forall s, mean_transmission s tau = exp (- (s * T))).
  { intros s. unfold mean_transmission, tau, rsum. simpl. field. }
  assert (Hs : mean_transmission sstar tau = exp (- te)).
  { rewrite Mt. f_equal. unfold sstar. field. unfold T. lra. }
  assert (Hp : 0 < sstar). { unfold sstar. rewrite Te. unfold T. lra. }
  destruct (C57_converges_aux tau (exp (- te)) (/ 100000) sstar Ha Hs Hp ltac:(lra)) as (n & s & Hn & Hss & Hm).
  rewrite Mt in Hm.
  exists (mkFile 0 5 1 tau), (mkOptions [3%Z] 0 false), s, n. intros fft junk Hj fuel Hf.
  cbn [f_data f_redshift]. fold te.
  destruct (C49_power_aux fft junk tau s te 1 5 ltac:(lia) ltac:(lia) Hj) as (p & Ep & _).
  destruct (C49_pdf_aux (map (fun t => t * s) tau) s) as (d & Ed & Hd & _); [discriminate|].
  exists p, d.
  assert (Run : statistic_main fft junk fuel (mkOptions [3%Z] 0 false) (mkFile 0 5 1 tau) = Written (Some p) (Some d)).
  { unfold statistic_main. cbn [o_stats o_used o_norescale f_numlos f_nbins f_data f_redshift fold_left].
    change (Z.testbit (0 + 3) 0) with true. change (Z.testbit (0 + 3) 1) with true. cbv zeta. cbn [orb negb Nat.eqb].
    change (Nat.ltb (length tau) (5 * 1)) with false. cbv iota. change (firstn (5 * 1) tau) with tau.
    unfold tau_eff_of. fold te. rewrite (Hn fuel Hf), Ep, Ed. reflexivity. }
  split; [exact Run|]. split; [apply Hn; assumption|].
  assert (Low : 0.99 <= exp (- (s * T))).
  { pose proof (exp_above_line (- te)). rewrite Te in *. lra. }
  split; [unfold tau; cbn [repeat]; apply Forall_forall; intros x Hx; repeat (destruct Hx as [<-|Hx]; [exact Low|]); destruct Hx|].
  apply pdf_scaled in Hd.
  assert (D20 : nth 0 d 0 = 20).
  { destruct Hd as (_ & Hd). destruct (Hd 0%nat ltac:(lia)) as (k & C & V).
    apply count_all in C.
    - rewrite V, C. unfold tau. rewrite repeat_length. simpl. field.
    - unfold tau. cbn [repeat]. assert (X : transmission_in 20 0 (s * s) T); [|apply Forall_forall; intros x Hx; repeat (destruct Hx as [<-|Hx]; [exact X|]); destruct Hx].
      unfold transmission_in. replace (INR 0 / INR 20) with 0 by (simpl; field).
      replace (INR (0 + 1) / INR 20) with (/ 20) by (simpl; field).
      split; [left; apply exp_pos|right].
      assert (Hs2 : 2000 <= s).
      { pose proof (exp_neg_upper te ltac:(rewrite Te; lra)) as U1. pose proof (exp_above_line (- (s * T))) as U2.
        assert (U3 : 1 / (1 + te) <= 1 - 0.00229).
        { rewrite Te. apply Rmult_le_reg_r with (1 + 0.0023); [lra|]. unfold Rdiv. rewrite Rmult_assoc, Rinv_l; lra. }
        assert (0.002 <= s * T) by lra. unfold T in *. lra. }
      assert (4 <= s * s * T) by (unfold T; nra).
      apply Rle_lt_trans with (exp (Ropp 4)).
      + destruct (Rle_lt_or_eq_dec 4 (s * s * T) H) as [L|L]; [left; apply exp_increasing; lra|].
        right. f_equal. lra.
      + rewrite exp_Ropp. apply Rinv_lt_contravar; [|apply exp4]. pose proof exp4. lra. }
  split; [|assumption].
  intros (_ & B). destruct (B 0%nat ltac:(lia)) as (k & C & V). apply count_none in C.
  - rewrite C in V. rewrite D20 in V. simpl in V. lra.
  - unfold tau. cbn [repeat]. assert (X : ~ transmission_in 20 0 s T); [|apply Forall_forall; intros x Hx; repeat (destruct Hx as [<-|Hx]; [exact X|]); destruct Hx].
    intros (_ & [X|X]); [discriminate|]. replace (INR (0 + 1) / INR 20) with (/ 20) in X by (simpl; field). lra.
Qed.
