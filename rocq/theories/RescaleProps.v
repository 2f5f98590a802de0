(** C15, C16: rescaling optical depths to a mean flux. *)
From Coq Require Import List Reals Lra Lia Permutation.
From Verif Require Import AbsorptionSpec RescaleModel RescaleSpec RescaleProofs.
Import ListNotations.
Local Open Scope R_scope.

(** C15: the loop ends, after a bounded number of iterations, with a positive factor that does not
    overshoot and gives the requested mean flux up to the tolerance, from above. *)
Theorem C15_converges : forall tau parts target tol thresh sstar, divided tau parts ->
  absorbing (unmasked thresh tau) ->
  mean_transmission sstar (unmasked thresh tau) = target -> / 10000000000 <= sstar -> 0 < tol < 1 ->
  exists s1 enough s, iterate parts target thresh 1 = Some s1 /\
    (forall fuel, (enough <= fuel)%nat ->
      mean_flux parts tau target tol thresh fuel = Some (Finite s)) /\
    INR enough <= 3 + sstar / (tol * s1) /\
    0 < s <= sstar /\
    target <= mean_transmission s (unmasked thresh tau) <= target + tol / (1 - tol).
Proof. exact C15_converges_aux. Qed.
Print Assumptions C15_converges.

(** From the second iterate on the factors increase and stay below the solution. *)
Theorem C15_monotone : forall tau parts target thresh sstar, divided tau parts ->
  absorbing (unmasked thresh tau) ->
  mean_transmission sstar (unmasked thresh tau) = target -> / 10000000000 <= sstar ->
  forall k, exists s s', iterate parts target thresh (S k) = Some s /\
    iterate parts target thresh (S (S k)) = Some s' /\ 0 < s /\ s <= s' /\ s' <= sstar.
Proof. exact C15_monotone_aux. Qed.
Print Assumptions C15_monotone.

(** A flux within [gap] of the request means a factor within this distance of the solution. *)
Theorem C15_distance : forall u s sstar target gap, absorbing u -> mean_transmission sstar u = target ->
  s <= sstar -> mean_transmission s u <= target + gap ->
  sstar - s <= gap * INR (length u) / rsum (map (fun t => t * exp (- (sstar * t))) u).
Proof. exact C15_distance_aux. Qed.
Print Assumptions C15_distance.

(** The solution exists exactly for the mean fluxes between the fraction of pixels without any
    absorption and one, and is unique. *)
Theorem C15_solution_exists : forall u target, absorbing u -> target < 1 ->
  INR (length (filter (fun t => if Req_EM_T t 0 then true else false) u)) < target * INR (length u) ->
  exists sstar, 0 < sstar /\ mean_transmission sstar u = target.
Proof. exact C15_solution_exists_aux. Qed.
Print Assumptions C15_solution_exists.

Theorem C15_solution_unique : forall u s s', absorbing u ->
  mean_transmission s u = mean_transmission s' u -> s = s'.
Proof. exact C15_solution_unique_aux. Qed.
Print Assumptions C15_solution_unique.

(** Without the lower bound on the solution the floor of 1e-10 is returned, whatever the mean flux. *)
Theorem C15_floor_refuted : let T := 100000000000 in let target := / 2 in
  (exists sstar, 0 < sstar < / 10000000000 /\ mean_transmission sstar [T] = target) /\
  (forall parts tol thresh, divided [T] parts -> T <= thresh -> 0 < tol < 1 -> exists n, forall fuel, (n <= fuel)%nat ->
    mean_flux parts [T] target tol thresh fuel = Some (Finite (/ 10000000000))) /\
  mean_transmission (/ 10000000000) [T] < / 36.
Proof. exact C15_floor_aux. Qed.
Print Assumptions C15_floor_refuted.

(** Without absorption below the threshold the result is an infinity or NaN. *)
Theorem C15_no_absorption_refuted : forall tau parts target tol thresh fuel, divided tau parts -> target <= 1 ->
  tau <> [] -> Forall (fun t => t = 0 \/ thresh < t) tau -> (0 < fuel)%nat ->
  mean_flux parts tau target tol thresh fuel = Some NotFinite.
Proof. exact C15_degenerate_aux. Qed.
Print Assumptions C15_no_absorption_refuted.

(** Without any pixel at all the factor is zero, for every requested mean flux. *)
Theorem C15_no_pixels_refuted : forall parts target tol thresh fuel,
  mean_flux parts [] target tol thresh fuel = Some (Finite 0).
Proof. reflexivity. Qed.
Print Assumptions C15_no_pixels_refuted.

(** Three pixels, one masked, one without absorption, two threads: mean flux (1 + 1/e)/2 is
    reached with factor 1/2. *)
Example C15_case : let tau := [2; 50; 0] in
  divided tau (fun _ => [[0; 2]; [50]]) /\ absorbing (unmasked 10 tau) /\
  mean_transmission (/ 2) (unmasked 10 tau) = (1 + exp (-1)) / 2.
Proof.
  cbv zeta.
  assert (U : unmasked 10 [2; 50; 0] = [2; 0]).
  { unfold unmasked. cbn [filter]. destruct (Rle_dec 2 10), (Rle_dec 50 10), (Rle_dec 0 10); try lra; reflexivity. }
  split; [|split].
  - intros k. simpl. eapply perm_trans; [apply perm_swap|]. constructor. apply perm_swap.
  - rewrite U. split; [repeat constructor; lra|constructor; lra].
  - rewrite U. unfold mean_transmission, rsum. cbn [map fold_right length INR].
    replace (- (/ 2 * 2)) with (-1) by lra. replace (- (/ 2 * 0)) with 0 by lra. rewrite exp_0. field.
Qed.

(** C16: only the unmasked pixels matter, not their order nor their division between threads. *)
Theorem C16_only_unmasked_pixels : forall tau tau' parts parts' target tol thresh thresh' fuel,
  tau <> [] -> tau' <> [] -> divided tau parts -> divided tau' parts' ->
  Permutation (unmasked thresh tau) (unmasked thresh' tau') ->
  mean_flux parts tau target tol thresh fuel = mean_flux parts' tau' target tol thresh' fuel.
Proof. exact C16_aux. Qed.
Print Assumptions C16_only_unmasked_pixels.

(** A masked pixel changed and the others permuted. *)
Example C16_case : Permutation (unmasked 10 [2; 50; 0]) (unmasked 7 [0; 2; 8; 9]).
Proof.
  unfold unmasked. cbn [filter].
  destruct (Rle_dec 2 10), (Rle_dec 50 10), (Rle_dec 0 10), (Rle_dec 0 7), (Rle_dec 2 7), (Rle_dec 8 7), (Rle_dec 9 7);
    try lra. apply perm_swap.
Qed.
