(** Proofs about the mean flux rescaling. *)
From Coq Require Import List Lia Reals Lra Psatz Permutation Ranalysis Rsqrt_def.
From Verif Require Import AbsorptionSpec AbsorptionProofs RescaleModel RescaleSpec.
Import ListNotations.
Local Open Scope R_scope.

Definition E (u : list R) (s : R) : R := rsum (map (fun t => exp (- (s * t))) u).
Definition D (u : list R) (s : R) : R := rsum (map (fun t => exp (- (s * t)) * t) u).

Lemma add_pixel_fold : forall thresh s p acc,
  fold_left (add_pixel thresh s) p acc =
  mkSums (s_flux acc + E (unmasked thresh p) s) (s_tau_flux acc + D (unmasked thresh p) s)
    (s_used acc + length (unmasked thresh p)).
Proof.
  intros thresh s. unfold E, D, rsum. induction p as [|t p IH]; intros [a b n]; simpl.
  - f_equal; [ring|ring|lia].
  - unfold add_pixel at 2. destruct (Rlt_dec thresh t); destruct (Rle_dec t thresh); try lra.
    + apply IH.
    + rewrite IH. simpl. replace (- s * t) with (- (s * t)) by ring. f_equal; [ring|ring|lia].
Qed.

Lemma unmasked_concat : forall thresh parts,
  unmasked thresh (concat parts) = concat (map (unmasked thresh) parts).
Proof.
  intros thresh. unfold unmasked. induction parts as [|p parts IH]; [reflexivity|].
  simpl. rewrite filter_app, IH. reflexivity.
Qed.

Lemma E_app : forall a b s, E (a ++ b) s = E a s + E b s.
Proof. intros. unfold E. rewrite map_app, rsum_app. reflexivity. Qed.
Lemma D_app : forall a b s, D (a ++ b) s = D a s + D b s.
Proof. intros. unfold D. rewrite map_app, rsum_app. reflexivity. Qed.

Lemma reduce_spec : forall thresh s parts,
  reduce thresh s parts = let u := unmasked thresh (concat parts) in mkSums (E u s) (D u s) (length u).
Proof.
  intros thresh s parts. unfold reduce. cbv zeta.
  assert (G : forall parts acc, fold_left (fun acc p =>
      let s0 := fold_left (add_pixel thresh s) p (mkSums 0 0 0) in
      mkSums (s_flux acc + s_flux s0) (s_tau_flux acc + s_tau_flux s0) (s_used acc + s_used s0)) parts acc =
      let u := unmasked thresh (concat parts) in
      mkSums (s_flux acc + E u s) (s_tau_flux acc + D u s) (s_used acc + length u)).
  { clear parts. induction parts as [|p parts IH]; intros [a b n].
    - simpl. unfold E, D, rsum. simpl. f_equal; [ring|ring|lia].
    - cbn [fold_left]. rewrite IH. cbv zeta. rewrite add_pixel_fold. cbn [concat].
      replace (unmasked thresh (p ++ concat parts)) with (unmasked thresh p ++ unmasked thresh (concat parts))
        by (symmetry; apply filter_app).
      rewrite E_app, D_app, app_length. cbn [s_flux s_tau_flux s_used]. f_equal; [ring|ring|lia]. }
  rewrite G. cbv zeta. simpl. f_equal; ring.
Qed.

Lemma unmasked_perm : forall thresh a b, Permutation a b -> Permutation (unmasked thresh a) (unmasked thresh b).
Proof.
  intros thresh a b H. unfold unmasked. induction H; simpl.
  - constructor.
  - destruct (Rle_dec x thresh); [constructor|]; assumption.
  - destruct (Rle_dec x thresh), (Rle_dec y thresh); try apply Permutation_refl. constructor.
  - eapply Permutation_trans; eassumption.
Qed.

Lemma sums_perm : forall a b s, Permutation a b -> mkSums (E a s) (D a s) (length a) = mkSums (E b s) (D b s) (length b).
Proof.
  intros a b s H. unfold E, D. rewrite (rsum_perm _ _ (Permutation_map _ H)).
  rewrite (rsum_perm (map (fun t => exp (- (s * t)) * t) a) _ (Permutation_map _ H)).
  rewrite (Permutation_length H). reflexivity.
Qed.

Lemma reduce_divided : forall thresh s tau parts k, divided tau parts ->
  reduce thresh s (parts k) =
  mkSums (E (unmasked thresh tau) s) (D (unmasked thresh tau) s) (length (unmasked thresh tau)).
Proof.
  intros thresh s tau parts k H. rewrite reduce_spec. cbv zeta. apply sums_perm, unmasked_perm, H.
Qed.

(** ** C16 *)

Lemma C16_aux : forall tau tau' parts parts' target tol thresh thresh' fuel, tau <> [] -> tau' <> [] ->
  divided tau parts -> divided tau' parts' ->
  Permutation (unmasked thresh tau) (unmasked thresh' tau') ->
  mean_flux parts tau target tol thresh fuel = mean_flux parts' tau' target tol thresh' fuel.
Proof.
  intros tau tau' parts parts' target tol thresh thresh' fuel Hn Hn' H H' P.
  unfold mean_flux. destruct tau as [|t0 tau]; [congruence|]. destruct tau' as [|t0' tau']; [congruence|].
  clear Hn Hn'. set (u := t0 :: tau) in *. set (u' := t0' :: tau') in *. generalize 1, 0%nat.
  induction fuel as [|fuel IH]; intros s k; [reflexivity|]. cbn [scale_loop].
  rewrite (reduce_divided thresh s u parts k H), (reduce_divided thresh' s u' parts' k H').
  rewrite (sums_perm _ _ s P). destruct (next_scale _ _ _); [|reflexivity].
  destruct (Rlt_dec _ _); [apply IH|reflexivity].
Qed.

(** ** C15 *)

Lemma exp_above_line : forall x, 1 + x <= exp x.
Proof.
  intros x. destruct (Req_dec x 0) as [->|H]; [rewrite exp_0; lra|]. left. apply exp_ineq1. assumption.
Qed.

Lemma exp_convex : forall t s s', exp (- (s * t)) - (s' - s) * (exp (- (s * t)) * t) <= exp (- (s' * t)).
Proof.
  intros t s s'. replace (- (s' * t)) with (- (s * t) + (- ((s' - s) * t))) by ring. rewrite exp_plus.
  pose proof (exp_above_line (- ((s' - s) * t))). pose proof (exp_pos (- (s * t))). nra.
Qed.

(** The graph lies above its tangents. *)
Lemma tangent : forall u s s', E u s - (s' - s) * D u s <= E u s'.
Proof.
  intros u s s'. unfold E, D, rsum. induction u as [|t u IH]; simpl; [lra|].
  pose proof (exp_convex t s s'). lra.
Qed.

Lemma D_nonneg : forall u s, Forall (fun t => 0 <= t) u -> 0 <= D u s.
Proof.
  intros u s H. unfold D, rsum. induction H as [|t u Ht _ IH]; simpl; [lra|].
  pose proof (exp_pos (- (s * t))). nra.
Qed.

Lemma D_pos : forall u s, absorbing u -> 0 < D u s.
Proof.
  intros u s (H & X). induction X as [t u Ht|t u X IH]; inversion H; subst; unfold D, rsum; cbn [map fold_right];
    fold (rsum (map (fun t => exp (- (s * t)) * t) u)); fold (D u s).
  - pose proof (D_nonneg u s ltac:(assumption)). pose proof (exp_pos (- (s * t))). nra.
  - specialize (IH ltac:(assumption)). pose proof (exp_pos (- (s * t))). nra.
Qed.

Lemma E_decreasing : forall u s s', absorbing u -> s < s' -> E u s' < E u s.
Proof.
  intros u s s' H Hs. pose proof (tangent u s' s). pose proof (D_pos u s' H). nra.
Qed.

Lemma D_decreasing : forall u s s', Forall (fun t => 0 <= t) u -> s <= s' -> D u s' <= D u s.
Proof.
  intros u s s' H Hs. unfold D, rsum. induction H as [|t u Ht _ IH]; simpl; [lra|].
  assert (exp (- (s' * t)) <= exp (- (s * t))).
  { destruct (Rle_lt_or_eq_dec s s' Hs) as [L| ->]; [|lra].
    destruct (Rle_lt_or_eq_dec 0 t Ht) as [Lt| <-]; [|rewrite !Rmult_0_r; lra].
    left. apply exp_increasing. nra. }
  nra.
Qed.

(** s times D is at most the number of pixels. *)
Lemma sD_bound : forall u s, 0 <= s -> Forall (fun t => 0 <= t) u -> s * D u s <= INR (length u).
Proof.
  intros u s Hs H. unfold D, rsum. induction H as [|t u Ht _ IH]; cbn [map fold_right length]; [simpl; lra|].
  rewrite S_INR. pose proof (exp_above_line (s * t)) as A.
  assert (s * (exp (- (s * t)) * t) <= 1).
  { rewrite exp_Ropp. pose proof (exp_pos (s * t)) as P.
    replace (s * (/ exp (s * t) * t)) with ((s * t) * / exp (s * t)) by ring.
    apply Rmult_le_reg_r with (exp (s * t)); [assumption|].
    replace (s * t * / exp (s * t) * exp (s * t)) with (s * t) by (field; lra). lra. }
  lra.
Qed.

(** The next factor, when it is defined by the Newton step. *)
Definition newton (u : list R) (target s : R) : R :=
  let new := s + (E u s - target * INR (length u)) / D u s in
  if Rle_dec new 0 then tiny else new.

Lemma next_scale_newton : forall u target s, absorbing u ->
  next_scale target s (mkSums (E u s) (D u s) (length u)) = Some (newton u target s).
Proof.
  intros u target s H. unfold next_scale, newton. cbn [s_flux s_tau_flux s_used].
  pose proof (D_pos u s H). destruct (Req_EM_T (D u s) 0); [lra|reflexivity].
Qed.

Lemma tiny_pos : 0 < tiny.
Proof. unfold tiny. apply Rinv_0_lt_compat. lra. Qed.

Lemma newton_pos : forall u target s, 0 < newton u target s.
Proof. intros. unfold newton. destruct (Rle_dec _ 0); [apply tiny_pos|lra]. Qed.

Section Solve.
Variable u : list R.
Variable target sstar : R.
Hypothesis Hu : absorbing u.
Hypothesis Hsol : E u sstar = target * INR (length u).
Hypothesis Hreach : tiny <= sstar.

Let f s := E u s - target * INR (length u).

Lemma below_iff : forall s, s <= sstar <-> 0 <= f s.
Proof.
  intros s. unfold f. rewrite <- Hsol. split; intros H.
  - destruct (Rle_lt_or_eq_dec s sstar H) as [L| ->]; [|lra]. pose proof (E_decreasing u s sstar Hu L). lra.
  - destruct (Rle_lt_dec s sstar) as [|L]; [assumption|]. pose proof (E_decreasing u sstar s Hu L). lra.
Qed.

Lemma newton_below : forall s, newton u target s <= sstar.
Proof.
  intros s. unfold newton. fold (f s). destruct (Rle_dec _ 0); [assumption|].
  apply below_iff. unfold f at 1. pose proof (tangent u s (s + f s / D u s)) as T.
  pose proof (D_pos u s Hu) as P.
  replace ((s + f s / D u s - s) * D u s) with (f s) in T by (field; lra).
  unfold f in T at 1. unfold f in *. lra.
Qed.

Lemma newton_increases : forall s, 0 < s -> s <= sstar -> s <= newton u target s.
Proof.
  intros s Hs H. apply below_iff in H. pose proof (D_pos u s Hu) as P.
  assert (0 <= f s / D u s) by (apply Rmult_le_pos; [assumption|left; apply Rinv_0_lt_compat; assumption]).
  unfold newton. fold (f s). destruct (Rle_dec _ 0); lra.
Qed.

(** The residual left when the loop stops. *)
Lemma residual : forall tol s, 0 < tol < 1 -> 0 < s -> s <= sstar \/ s = 1 ->
  Rabs (newton u target s - s) <= tol * newton u target s ->
  0 <= f (newton u target s) /\ f (newton u target s) <= tol / (1 - tol) * INR (length u).
Proof.
  intros tol s Ht Hs Hcase Hstop. set (s' := newton u target s) in *.
  pose proof (newton_pos u target s) as Hp. fold s' in Hp.
  pose proof (newton_below s) as Hb. fold s' in Hb.
  split; [apply below_iff; assumption|].
  pose proof (pos_INR (length u)) as Hlen.
  assert (Htt : tol <= tol / (1 - tol)).
  { unfold Rdiv. rewrite <- (Rmult_1_r tol) at 1. apply Rmult_le_compat_l; [lra|].
    rewrite <- Rinv_1. apply Rinv_le_contravar; lra. }
  destruct (Rle_lt_dec s s') as [Hup|Hdown].
  - (* upwards: the residual at s is the step times D(s) *)
    rewrite Rabs_pos_eq in Hstop by lra.
    assert (Hss : s <= sstar) by lra. apply below_iff in Hss.
    pose proof (D_pos u s Hu) as P. pose proof (sD_bound u s ltac:(lra) (proj1 Hu)) as B.
    assert (Hfs : f s = (s' - s) * D u s).
    { unfold s', newton. fold (f s).
      assert (0 <= f s / D u s) by (apply Rmult_le_pos; [assumption|left; apply Rinv_0_lt_compat; assumption]).
      destruct (Rle_dec _ 0); [lra|]. field. lra. }
    assert (Hf : f s' <= f s).
    { unfold f. destruct (Rle_lt_or_eq_dec s s' Hup) as [L| <-]; [|lra].
      pose proof (E_decreasing u s s' Hu L). lra. }
    apply Rle_trans with (f s); [assumption|]. rewrite Hfs.
    assert (Hs1 : s' * (1 - tol) <= s) by lra.
    assert (Hs2 : s' - s <= tol / (1 - tol) * s).
    { apply Rmult_le_reg_r with (1 - tol); [lra|].
      replace (tol / (1 - tol) * s * (1 - tol)) with (tol * s) by (field; lra).
      apply Rle_trans with (tol * s' * (1 - tol)); [|nra].
      apply Rmult_le_compat_r; lra. }
    apply Rle_trans with (tol / (1 - tol) * s * D u s).
    + apply Rmult_le_compat_r; lra.
    + rewrite Rmult_assoc. apply Rmult_le_compat_l; [|assumption]. lra.
  - (* downwards: only from the starting value *)
    rewrite Rabs_left1 in Hstop by lra.
    destruct Hcase as [Hc|Hc].
    { pose proof (newton_increases s Hs Hc). fold s' in H. lra. }
    assert (Hneg : f s < 0).
    { apply Rnot_le_lt. intros C. apply below_iff in C. pose proof (newton_increases s Hs C). fold s' in H. lra. }
    pose proof (tangent u s' s) as T. unfold f in *.
    pose proof (sD_bound u s' ltac:(lra) (proj1 Hu)) as B. pose proof (D_pos u s' Hu).
    assert ((s - s') * D u s' <= tol * s' * D u s') by (apply Rmult_le_compat_r; lra).
    assert (tol * (s' * D u s') <= tol * INR (length u)) by (apply Rmult_le_compat_l; lra).
    assert (tol * INR (length u) <= tol / (1 - tol) * INR (length u)) by (apply Rmult_le_compat_r; lra).
    lra.
Qed.

End Solve.

Lemma iterate_newton : forall tau parts target thresh k, divided tau parts -> absorbing (unmasked thresh tau) ->
  iterate parts target thresh (S k) =
  option_map (newton (unmasked thresh tau) target) (iterate parts target thresh k).
Proof.
  intros tau parts target thresh k H Hu. cbn [iterate]. destruct (iterate parts target thresh k) as [s|]; [|reflexivity].
  rewrite (reduce_divided thresh s tau parts k H). apply next_scale_newton. assumption.
Qed.

Lemma mean_E : forall s u target, u <> [] -> (mean_transmission s u = target <-> E u s = target * INR (length u)) /\
  (forall x, x <= mean_transmission s u <-> x * INR (length u) <= E u s) /\
  (forall x, mean_transmission s u <= x <-> E u s <= x * INR (length u)).
Proof.
  intros s u target H. unfold mean_transmission. fold (E u s).
  assert (P : 0 < INR (length u)) by (apply lt_0_INR; destruct u; [congruence|simpl; lia]).
  split; [|split].
  - split; intros X.
    + rewrite <- X. field. lra.
    + rewrite X. field. lra.
  - intros x. split; intros X.
    + apply Rmult_le_compat_r with (r := INR (length u)) in X; [|lra].
      replace (E u s / INR (length u) * INR (length u)) with (E u s) in X by (field; lra). assumption.
    + apply Rmult_le_reg_r with (INR (length u)); [lra|].
      replace (E u s / INR (length u) * INR (length u)) with (E u s) by (field; lra). assumption.
  - intros x. split; intros X.
    + apply Rmult_le_compat_r with (r := INR (length u)) in X; [|lra].
      replace (E u s / INR (length u) * INR (length u)) with (E u s) in X by (field; lra). assumption.
    + apply Rmult_le_reg_r with (INR (length u)); [lra|].
      replace (E u s / INR (length u) * INR (length u)) with (E u s) by (field; lra). assumption.
Qed.

Lemma absorbing_nonempty : forall u, absorbing u -> u <> [].
Proof. intros u (_ & X) ->. inversion X. Qed.

Lemma C15_monotone_aux : forall tau parts target thresh sstar, divided tau parts ->
  absorbing (unmasked thresh tau) ->
  mean_transmission sstar (unmasked thresh tau) = target -> / 10000000000 <= sstar ->
  forall k, exists s s', iterate parts target thresh (S k) = Some s /\
    iterate parts target thresh (S (S k)) = Some s' /\ 0 < s /\ s <= s' /\ s' <= sstar.
Proof.
  intros tau parts target thresh sstar Hd Hu Hs Ht k. set (u := unmasked thresh tau) in *.
  apply (mean_E sstar u target (absorbing_nonempty _ Hu)) in Hs.
  assert (G : forall k, exists s, iterate parts target thresh (S k) = Some s /\ 0 < s <= sstar).
  { induction k0 as [|k0 IH].
    - exists (newton u target 1). rewrite (iterate_newton tau) by assumption. split; [reflexivity|].
      split; [apply newton_pos|apply newton_below; assumption].
    - destruct IH as (s & E1 & _). exists (newton u target s). rewrite (iterate_newton tau) by assumption.
      rewrite E1. split; [reflexivity|]. split; [apply newton_pos|apply newton_below; assumption]. }
  destruct (G k) as (s & E1 & B1). exists s, (newton u target s). split; [assumption|].
  rewrite (iterate_newton tau) by assumption. rewrite E1. split; [reflexivity|].
  split; [lra|]. split; [apply newton_increases with sstar; try assumption; lra|apply newton_below; assumption].
Qed.

Lemma nat_above : forall x, 0 <= x -> exists n, x <= INR n /\ INR n <= x + 1.
Proof.
  intros x Hx. destruct (archimed x) as (A & B). exists (Z.to_nat (up x)).
  assert (0 < up x)%Z by (apply lt_IZR; lra).
  rewrite INR_IZR_INZ, Z2Nat.id by lia. lra.
Qed.

Lemma C15_converges_aux : forall tau parts target tol thresh sstar, divided tau parts ->
  absorbing (unmasked thresh tau) ->
  mean_transmission sstar (unmasked thresh tau) = target -> / 10000000000 <= sstar -> 0 < tol < 1 ->
  exists s1 enough s, iterate parts target thresh 1 = Some s1 /\
    (forall fuel, (enough <= fuel)%nat ->
      mean_flux parts tau target tol thresh fuel = Some (Finite s)) /\
    INR enough <= 3 + sstar / (tol * s1) /\
    0 < s <= sstar /\
    target <= mean_transmission s (unmasked thresh tau) <= target + tol / (1 - tol).
Proof.
  intros tau parts target tol thresh sstar Hd Hu Hs Ht Htol. set (u := unmasked thresh tau) in *.
  pose proof (absorbing_nonempty _ Hu) as Hne.
  assert (Hsol := proj1 (proj1 (mean_E sstar u target Hne)) Hs).
  assert (Step : forall fuel k s, scale_loop parts target tol thresh (S fuel) k s =
     if Rlt_dec (tol * newton u target s) (Rabs (newton u target s - s))
     then scale_loop parts target tol thresh fuel (S k) (newton u target s) else Some (Finite (newton u target s))).
  { intros fuel k s. cbn [scale_loop]. rewrite (reduce_divided thresh s tau parts k Hd).
    fold u. rewrite next_scale_newton by assumption. reflexivity. }
  assert (Done : forall s, 0 < s -> s <= sstar \/ s = 1 -> ~ tol * newton u target s < Rabs (newton u target s - s) ->
     0 < newton u target s <= sstar /\ target <= mean_transmission (newton u target s) u <= target + tol / (1 - tol)).
  { intros s Hp Hc Hstop.
    destruct (residual u target sstar Hu Hsol Ht tol s Htol Hp Hc) as (R1 & R2); [lra|].
    split; [split; [apply newton_pos|apply newton_below; assumption]|].
    destruct (mean_E (newton u target s) u target Hne) as (_ & M1 & M2).
    split; [apply M1; lra|apply M2]. lra. }
  set (s1 := newton u target 1).
  assert (Hs1 : 0 < s1) by apply newton_pos.
  assert (Htp : 0 < tol * s1) by (apply Rmult_lt_0_compat; lra).
  pose proof (newton_below u target sstar Hu Hsol Ht 1) as V1. fold s1 in V1.
  assert (G : forall n k s, s1 <= s -> s <= sstar -> sstar - s <= INR n * (tol * s1) ->
     exists r, (forall fuel, (S n <= fuel)%nat -> scale_loop parts target tol thresh fuel k s = Some (Finite r)) /\
       0 < r <= sstar /\ target <= mean_transmission r u <= target + tol / (1 - tol)).
  { induction n as [|n IH]; intros k s H1 H2 H3.
    - simpl in H3. assert (s = sstar) by lra.
      pose proof (newton_increases u target sstar Hu Hsol s ltac:(lra) H2) as U.
      pose proof (newton_below u target sstar Hu Hsol Ht s) as V.
      assert (X : ~ tol * newton u target s < Rabs (newton u target s - s)).
      { replace (newton u target s) with s by lra. rewrite Rminus_diag_eq, Rabs_R0 by reflexivity. nra. }
      exists (newton u target s). split.
      + intros [|fuel] Hf; [lia|]. rewrite Step. destruct (Rlt_dec _ _); [contradiction|reflexivity].
      + apply Done; [lra|left; assumption|assumption].
    - pose proof (newton_increases u target sstar Hu Hsol s ltac:(lra) H2) as U.
      pose proof (newton_below u target sstar Hu Hsol Ht s) as V.
      destruct (Rlt_dec (tol * newton u target s) (Rabs (newton u target s - s))) as [L|L].
      + rewrite Rabs_pos_eq in L by lra.
        assert (tol * s1 <= tol * newton u target s) by (apply Rmult_le_compat_l; lra).
        destruct (IH (S k) (newton u target s)) as (r & Hr & Hr2); [lra|lra|rewrite S_INR in H3; lra|].
        exists r. split; [|assumption]. intros [|fuel] Hf; [lia|]. rewrite Step.
        destruct (Rlt_dec _ _) as [_|C]; [apply Hr; lia|]. exfalso. apply C. rewrite Rabs_pos_eq by lra. assumption.
      + exists (newton u target s). split.
        * intros [|fuel] Hf; [lia|]. rewrite Step. destruct (Rlt_dec _ _); [contradiction|reflexivity].
        * apply Done; [lra|left; assumption|assumption]. }
  assert (Htau : exists t0 tau', tau = t0 :: tau').
  { destruct tau as [|t0 tau']; [exfalso; apply Hne; reflexivity|eauto]. }
  destruct Htau as (t0 & tau' & Etau).
  assert (MF : forall fuel, mean_flux parts tau target tol thresh fuel = scale_loop parts target tol thresh fuel 0 1).
  { intros fuel. unfold mean_flux. rewrite Etau. reflexivity. }
  assert (Q : 0 <= sstar / (tol * s1)).
  { apply Rmult_le_pos; [lra|left; apply Rinv_0_lt_compat; assumption]. }
  exists s1.
  destruct (Rlt_dec (tol * s1) (Rabs (s1 - 1))) as [L|L].
  - destruct (nat_above (sstar / (tol * s1)) Q) as (n & N1 & N2).
    assert (N3 : sstar - s1 <= INR n * (tol * s1)).
    { apply Rmult_le_compat_r with (r := tol * s1) in N1; [|lra].
      replace (sstar / (tol * s1) * (tol * s1)) with sstar in N1 by (field; lra). lra. }
    destruct (G n 1%nat s1 ltac:(lra) V1 N3) as (r & Hr & Hr2).
    exists (S (S n)), r. split; [rewrite (iterate_newton tau) by assumption; reflexivity|].
    split; [|split; [rewrite !S_INR; lra|assumption]].
    intros [|fuel] Hf; [lia|]. rewrite MF, Step. fold s1. destruct (Rlt_dec _ _); [|contradiction]. apply Hr. lia.
  - exists 1%nat, s1. split; [rewrite (iterate_newton tau) by assumption; reflexivity|]. split; [|split].
    + intros [|fuel] Hf; [lia|]. rewrite MF, Step. fold s1. destruct (Rlt_dec _ _); [contradiction|reflexivity].
    + simpl. lra.
    + apply Done; [lra|right; reflexivity|assumption].
Qed.

(** The factor itself: how far it can be from the solution. *)
Lemma C15_distance_aux : forall u s sstar target gap, absorbing u -> mean_transmission sstar u = target ->
  s <= sstar -> mean_transmission s u <= target + gap ->
  sstar - s <= gap * INR (length u) / rsum (map (fun t => t * exp (- (sstar * t))) u).
Proof.
  intros u s sstar target gap Hu Hs Hle Hg.
  pose proof (absorbing_nonempty _ Hu) as Hne.
  apply (mean_E sstar u target Hne) in Hs. apply (mean_E s u target Hne) in Hg.
  pose proof (tangent u sstar s) as T. pose proof (D_pos u sstar Hu) as P.
  replace (rsum (map (fun t => t * exp (- (sstar * t))) u)) with (D u sstar).
  2:{ unfold D. f_equal. apply map_ext. intros t. ring. }
  apply Rmult_le_reg_r with (D u sstar); [assumption|].
  replace (gap * INR (length u) / D u sstar * D u sstar) with (gap * INR (length u)) by (field; lra). lra.
Qed.

Lemma C15_solution_unique_aux : forall u s s', absorbing u ->
  mean_transmission s u = mean_transmission s' u -> s = s'.
Proof.
  intros u s s' Hu H. pose proof (absorbing_nonempty _ Hu) as Hne.
  apply (mean_E s u _ Hne) in H. unfold mean_transmission in H. fold (E u s') in H.
  assert (P : 0 < INR (length u)) by (apply lt_0_INR; destruct u; [congruence|simpl; lia]).
  replace (E u s' / INR (length u) * INR (length u)) with (E u s') in H by (field; lra).
  destruct (Rtotal_order s s') as [L|[L|L]]; [|assumption|].
  - pose proof (E_decreasing u s s' Hu L). lra.
  - pose proof (E_decreasing u s' s Hu L). lra.
Qed.

Lemma E_continuous : forall u, continuity (E u).
Proof.
  intros u. induction u as [|t u IH].
  - apply continuity_const. intros x y. reflexivity.
  - intros x. change (E (t :: u)) with (fun s => exp (- (s * t)) + E u s).
    apply (continuity_pt_plus (fun s => exp (- (s * t))) (E u)); [|apply IH].
    apply (continuity_pt_comp (fun s => - (s * t)) exp).
    + apply continuity_pt_opp. apply continuity_pt_mult.
      * apply derivable_continuous_pt, derivable_pt_id.
      * apply continuity_pt_const. intros a b. reflexivity.
    + apply derivable_continuous_pt, derivable_pt_exp.
Qed.

(** Far out only the pixels without absorption transmit. *)
Lemma E_far : forall u b, 0 < b -> Forall (fun t => 0 <= t) u ->
  E u b <= INR (length (filter (fun t => if Req_EM_T t 0 then true else false) u)) +
    / b * rsum (map (fun t => if Req_EM_T t 0 then 0 else / t) u).
Proof.
  intros u b Hb H. unfold E, rsum. induction H as [|t u Ht _ IH]; cbn [map fold_right filter length]; [simpl; lra|].
  destruct (Req_EM_T t 0) as [->|Hne].
  - cbn [length]. rewrite S_INR. rewrite Rmult_0_r, Ropp_0, exp_0. lra.
  - assert (Hp : 0 < t) by lra. pose proof (exp_above_line (b * t)) as A.
    assert (exp (- (b * t)) <= / b * / t); [|lra].
    rewrite exp_Ropp, <- Rinv_mult. apply Rinv_le_contravar; nra.
Qed.

Lemma C15_solution_exists_aux : forall u target, absorbing u -> target < 1 ->
  INR (length (filter (fun t => if Req_EM_T t 0 then true else false) u)) < target * INR (length u) ->
  exists sstar, 0 < sstar /\ mean_transmission sstar u = target.
Proof.
  intros u target Hu Ht Hz. pose proof (absorbing_nonempty _ Hu) as Hne.
  assert (P : 0 < INR (length u)) by (apply lt_0_INR; destruct u; [congruence|simpl; lia]).
  set (z := INR (length (filter _ u))) in *.
  set (w := rsum (map (fun t => if Req_EM_T t 0 then 0 else / t) u)).
  assert (Hw : 0 <= w).
  { apply rsum_nonneg. intros x Hx. apply in_map_iff in Hx. destruct Hx as (t & <- & Hin).
    destruct (Req_EM_T t 0); [lra|]. left. apply Rinv_0_lt_compat.
    destruct Hu as (Hu & _). rewrite Forall_forall in Hu. specialize (Hu t Hin). lra. }
  set (g := target * INR (length u) - z) in *. assert (Hg : 0 < g) by (unfold g; lra).
  set (b := (w + 1) / g). assert (Hb : 0 < b) by (apply Rdiv_lt_0_compat; lra).
  assert (Fb : E u b - target * INR (length u) < 0).
  { pose proof (E_far u b Hb (proj1 Hu)) as F. fold z w in F.
    assert (/ b * w < g).
    { unfold b. replace (/ ((w + 1) / g) * w) with (g * (w / (w + 1))) by (field; lra).
      rewrite <- (Rmult_1_r g) at 2. apply Rmult_lt_compat_l; [assumption|].
      apply Rmult_lt_reg_r with (w + 1); [lra|]. replace (w / (w + 1) * (w + 1)) with w by (field; lra). lra. }
    unfold g in *. lra. }
  assert (F0 : 0 < E u 0 - target * INR (length u)).
  { assert (E0 : E u 0 = INR (length u)).
    { unfold E, rsum. clear. induction u as [|t u IH]; [reflexivity|]. cbn [map fold_right length].
      rewrite S_INR, IH, Rmult_0_l, Ropp_0, exp_0. ring. }
    rewrite E0. nra. }
  destruct (IVT (fun s => - (E u s - target * INR (length u))) 0 b) as (x & Hx & Ex).
  - intros x. apply continuity_pt_opp. apply continuity_pt_minus; [apply E_continuous|].
    apply continuity_pt_const. intros a c. reflexivity.
  - assumption.
  - lra.
  - lra.
  - exists x. split.
    + destruct (Rle_lt_or_eq_dec 0 x (proj1 Hx)) as [| <-]; [assumption|]. lra.
    + apply mean_E; [assumption|]. lra.
Qed.

(** ** The guards are needed *)

Lemma exp_square : forall x, 0 <= x -> (1 + x / 2) * (1 + x / 2) <= exp x.
Proof.
  intros x Hx. replace (exp x) with (exp (x / 2) * exp (x / 2)) by (rewrite <- exp_plus; f_equal; field).
  pose proof (exp_above_line (x / 2)). apply Rmult_le_compat; lra.
Qed.

Lemma single_newton : forall T target s, 0 < T ->
  newton [T] target s = let new := s + (1 - target * exp (s * T)) / T in if Rle_dec new 0 then tiny else new.
Proof.
  intros T target s HT. unfold newton, E, D, rsum. simpl map. simpl fold_right. cbn [length INR].
  assert (X : (exp (- (s * T)) + 0 - target * 1) / (exp (- (s * T)) * T + 0) = (1 - target * exp (s * T)) / T).
  { rewrite exp_Ropp. pose proof (exp_pos (s * T)). field. lra. }
  rewrite X. reflexivity.
Qed.

Lemma C15_floor_aux : let T := 100000000000 in let target := / 2 in
  (exists sstar, 0 < sstar < / 10000000000 /\ mean_transmission sstar [T] = target) /\
  (forall parts tol thresh, divided [T] parts -> T <= thresh -> 0 < tol < 1 -> exists n, forall fuel, (n <= fuel)%nat ->
    mean_flux parts [T] target tol thresh fuel = Some (Finite (/ 10000000000))) /\
  mean_transmission (/ 10000000000) [T] < / 36.
Proof.
  cbv zeta. set (T := 100000000000).
  assert (HT : 0 < T) by (unfold T; lra).
  assert (MT : forall s, mean_transmission s [T] = exp (- (s * T))).
  { intros s. unfold mean_transmission, rsum. simpl. field. }
  assert (E10 : 36 <= exp 10) by (pose proof (exp_square 10); lra).
  assert (ET : T + 1 <= / 2 * exp T).
  { pose proof (exp_square T ltac:(lra)). unfold T in *. lra. }
  split; [|split].
  - exists (ln 2 / T). rewrite MT. replace (ln 2 / T * T) with (ln 2) by (field; lra).
    rewrite exp_Ropp, exp_ln by lra. split; [|reflexivity].
    assert (L0 : 0 < ln 2) by (rewrite <- ln_1; apply ln_increasing; lra).
    assert (L1 : ln 2 <= 1).
    { rewrite <- (ln_exp 1). pose proof (exp_above_line 1). destruct (Rle_lt_or_eq_dec 2 (exp 1)) as [L|L]; [lra| |].
      - left. apply ln_increasing; lra.
      - rewrite <- L. lra. }
    split; [apply Rdiv_lt_0_compat; lra|]. unfold T. lra.
  - intros parts tol thresh Hd Hth Htol. exists 2%nat. intros fuel Hf.
    assert (Hun : unmasked thresh [T] = [T]).
    { unfold unmasked. cbn [filter]. destruct (Rle_dec T thresh); [reflexivity|contradiction]. }
    assert (Hab : absorbing [T]).
    { split; [constructor; [lra|constructor]|constructor; lra]. }
    assert (NS : forall k s, next_scale (/ 2) s (reduce thresh s (parts k)) = Some (newton [T] (/ 2) s)).
    { intros k s. rewrite (reduce_divided thresh s [T] parts k Hd), Hun. apply next_scale_newton. assumption. }
    assert (N1 : newton [T] (/ 2) 1 = tiny).
    { rewrite single_newton by assumption. cbv zeta. rewrite Rmult_1_l. destruct (Rle_dec _ 0) as [|C]; [reflexivity|].
      exfalso. apply C. replace (1 + (1 - / 2 * exp T) / T) with ((T + 1 - / 2 * exp T) / T) by (field; lra).
      apply Rmult_le_reg_r with T; [lra|].
      replace ((T + 1 - / 2 * exp T) / T * T) with (T + 1 - / 2 * exp T) by (field; lra). lra. }
    assert (N2 : newton [T] (/ 2) tiny = tiny).
    { rewrite single_newton by assumption. cbv zeta. replace (tiny * T) with 10 by (unfold tiny, T; lra).
      destruct (Rle_dec _ 0) as [|C]; [reflexivity|].
      exfalso. apply C. apply Rmult_le_reg_r with T; [lra|].
      replace ((tiny + (1 - / 2 * exp 10) / T) * T) with (tiny * T + (1 - / 2 * exp 10)) by (field; lra).
      replace (tiny * T) with 10 by (unfold tiny, T; lra). lra. }
    assert (Stop : ~ tol * tiny < Rabs (tiny - tiny)).
    { rewrite Rminus_diag_eq, Rabs_R0 by reflexivity. pose proof tiny_pos. nra. }
    destruct fuel as [|[|fuel]]; [lia|lia|]. unfold mean_flux. cbn [scale_loop]. rewrite !NS, N1.
    destruct (Rlt_dec (tol * tiny) (Rabs (tiny - 1))) as [_|_]; [|reflexivity].
    rewrite N2. destruct (Rlt_dec (tol * tiny) (Rabs (tiny - tiny))); [contradiction|reflexivity].
  - rewrite MT. replace (/ 10000000000 * T) with 10 by (unfold T; lra). rewrite exp_Ropp.
    assert (36 < exp 10); [|apply Rinv_lt_contravar; [nra|assumption]].
    destruct (Rle_lt_or_eq_dec _ _ E10) as [|C]; [assumption|].
    pose proof (exp_square 5 ltac:(lra)) as X.
    replace 10 with (5 + 5) in C by ring. rewrite exp_plus in C. nra.
Qed.

Lemma C15_degenerate_aux : forall tau parts target tol thresh fuel, divided tau parts -> target <= 1 ->
  tau <> [] -> Forall (fun t => t = 0 \/ thresh < t) tau -> (0 < fuel)%nat ->
  mean_flux parts tau target tol thresh fuel = Some NotFinite.
Proof.
  intros tau parts target tol thresh fuel Hd Ht Hne H Hf. destruct fuel as [|fuel]; [lia|].
  unfold mean_flux. destruct tau as [|t0 tau0] eqn:Et; [congruence|]. rewrite <- Et in *.
  cbn [scale_loop]. rewrite (reduce_divided thresh 1 tau parts 0 Hd).
  assert (Z : Forall (fun t => t = 0) (unmasked thresh tau)).
  { apply Forall_forall. intros t Hin. unfold unmasked in Hin. apply filter_In in Hin. destruct Hin as (Hin & Hb).
    rewrite Forall_forall in H. destruct (H t Hin) as [|C]; [assumption|].
    destruct (Rle_dec t thresh); [lra|discriminate]. }
  set (u := unmasked thresh tau) in *.
  assert (E1 : E u 1 = INR (length u) /\ D u 1 = 0).
  { clear - Z. unfold E, D, rsum. induction Z as [|t u -> _ (I1 & I2)]; [simpl; auto|].
    cbn [map fold_right length]. rewrite S_INR, I1, I2, Rmult_0_r, Ropp_0, exp_0. split; ring. }
  destruct E1 as (E1 & E2). unfold next_scale. cbn [s_flux s_tau_flux s_used]. rewrite E1, E2.
  destruct (Req_EM_T 0 0); [|lra]. pose proof (pos_INR (length u)).
  destruct (Rlt_dec _ 0); [nra|reflexivity].
Qed.
