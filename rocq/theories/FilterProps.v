(** C25: masking saturated absorption. *)
From Coq Require Import ZArith List Reals Lra Lia.
From Verif Require Import AbsorptionSpec FilterModel FilterSpec FilterProofs.
Import ListNotations.
Local Open Scope R_scope.

(** With a threshold at least 1/4 above the effective optical depth, the loop ends after at most as many
    passes as there are pixels; exactly the stretches of pixels above taueff + 1/4 that contain a saturated
    pixel are replaced, periodically, and no pixel above the threshold is left. *)
Theorem C25_exact : forall taueff thresh l fuel, l <> [] -> taueff + 1 / 4 <= thresh -> (length l <= fuel)%nat ->
  exists out, filter_single fuel taueff thresh l = Done out /\
    masked thresh (taueff + 1 / 4) taueff l out /\ forall x, In x out -> x <= thresh.
Proof. exact C25_exact_aux. Qed.
Print Assumptions C25_exact.

(** The same for a whole array, with its own effective optical depth; the final assertion holds. *)
Theorem C25_array : forall tau thresh fuel, tau <> [] -> Forall (fun r => r <> [] /\ (length r <= fuel)%nat) tau ->
  effective_tau tau + 1 / 4 <= thresh -> 0 < thresh ->
  exists out, filter_tau fuel tau (Some thresh) = Done out /\
    Forall2 (fun r r' => masked thresh (effective_tau tau + 1 / 4) (effective_tau tau) r r' /\
                         forall x, In x r' -> x <= thresh) tau out.
Proof. exact C25_array_aux. Qed.
Print Assumptions C25_array.

(** Below that, a pixel between the threshold and taueff + 1/4 makes the loop run forever, and so does any
    pixel above the threshold if the threshold is below the effective optical depth. *)
Theorem C25_low_threshold_refuted : forall tau thresh fuel r x, In r tau -> In x r -> Forall (fun r => r <> []) tau ->
  (thresh < x <= effective_tau tau + 1 / 4 \/ (thresh < x /\ thresh < effective_tau tau)) ->
  filter_tau fuel tau (Some thresh) = Running.
Proof. exact C25_array_diverges_aux. Qed.
Print Assumptions C25_low_threshold_refuted.

(** The value put in is the effective optical depth of the whole array before masking: its transmission is the mean one. *)
Theorem C25_effective : forall tau, concat tau <> [] ->
  exp (- effective_tau tau) * INR (length (concat tau)) = rsum (map (fun t => exp (- t)) (concat tau)).
Proof. exact C25_effective_aux. Qed.
Print Assumptions C25_effective.

(** Without a threshold nothing is changed. *)
Theorem C25_off : forall fuel tau, filter_tau fuel tau None = Done tau.
Proof. reflexivity. Qed.
Print Assumptions C25_off.

(** A saturated line with its wings, wrapping around the end of the spectrum. *)
Example C25_example : let l := [3; 1; 0; 1; 0; 1] in
  l <> [] /\ 1 / 2 + 1 / 4 <= 2 /\
  near_saturated 2 (1 / 2 + 1 / 4) l 5 /\ near_saturated 2 (1 / 2 + 1 / 4) l 1 /\ ~ near_saturated 2 (1 / 2 + 1 / 4) l 3.
Proof.
  intros l. subst l. split; [discriminate|]. split; [lra|].
  split.
  { exists 1%Z. split; [change (2 < 3); lra|]. intros e He. assert (C : (e = 0 \/ e = 1)%Z) by lia.
    destruct C as [-> | ->]; [change (1 / 2 + 1 / 4 < 1)|change (1 / 2 + 1 / 4 < 3)]; lra. }
  split.
  { exists (-1)%Z. split; [change (2 < 3); lra|]. intros e He. assert (C : (e = 0 \/ e = -1)%Z) by lia.
    destruct C as [-> | ->]; [change (1 / 2 + 1 / 4 < 1)|change (1 / 2 + 1 / 4 < 3)]; lra. }
  intros (d & Hd & He). assert (C : (1 <= d \/ d <= -1 \/ d = 0)%Z) by lia. destruct C as [C|[C| ->]].
  - specialize (He 1%Z ltac:(lia)). change (1 / 2 + 1 / 4 < 0) in He. lra.
  - specialize (He (-1)%Z ltac:(lia)). change (1 / 2 + 1 / 4 < 0) in He. lra.
  - change (2 < 1) in Hd. lra.
Qed.

(** An array meeting the hypotheses of C25_array with a saturated pixel. *)
Example C25_array_example : let tau := [[10; 0; 0]] in effective_tau tau + 1 / 4 <= 1.
Proof.
  intros tau. unfold effective_tau, tau. cbn [concat app map rsum fold_right length INR].
  assert (G : - (1 / 2) <= ln ((exp (- (10)) + (exp (- 0) + (exp (- 0) + 0))) / (1 + 1 + 1))); [|lra].
  rewrite <- (ln_exp (- (1 / 2))). apply Rlt_le, ln_increasing; [apply exp_pos|].
  rewrite exp_Ropp, Ropp_0, exp_0. pose proof (exp_ineq1_le (1 / 2)). pose proof (exp_pos (- (10))).
  apply Rle_lt_trans with (/ (3 / 2)); [apply Rinv_le_contravar; lra|lra].
Qed.

(** A uniform spectrum of optical depth 2 and a threshold of 1: the call hangs. *)
Example C25_hang_example : forall fuel, filter_tau fuel [[2; 2]] (Some 1) = Running.
Proof.
  intros fuel. apply (C25_low_threshold_refuted _ _ _ [2; 2] 2); [left; reflexivity|left; reflexivity|repeat constructor; discriminate|].
  left. unfold effective_tau. cbn [concat app map rsum fold_right length INR].
  replace ((exp (- (2)) + (exp (- (2)) + 0)) / (1 + 1)) with (exp (- (2))) by lra. rewrite ln_exp. lra.
Qed.
