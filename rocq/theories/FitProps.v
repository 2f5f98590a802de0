(** C61, C62, C63: the Voigt profile fitter. *)
From Coq Require Import ZArith List Reals Lra Lia Permutation Sorting.Sorted.
From Verif Require Import AbsorptionSpec FilterModel FitModel FitSpec FitProofs FitProofs2.
Import ListNotations.
Local Open Scope R_scope.

(** C61: whatever widths the minimiser returns, the search for peaks ends after at most one peak per pixel.
    Either it succeeds: every peak sits on a pixel of its own, with the height of what the peaks before it left
    there, the highest of the pixels not yet saturated; and at the end the spectrum exceeds the sum of the peaks
    by at most the tolerance at every pixel where that sum is below the saturation limit.  Or it raises: the
    spectrum has a single pixel, or what is left of it, seen from the highest pixel, is a single hump. *)
Theorem C61_search : forall dvbin voigt bounded tol sattau tau fuel m,
  0 < dvbin -> (forall w, 1 <= w <= 120 -> peaked voigt w) -> honest bounded -> 0 < tol -> (length tau <= fuel)%nat -> highest tau m ->
  let realtol := tol * Rmax 1 m in
  (exists ps,
     search dvbin voigt bounded fuel tol sattau tau =
       Done (map (fun p => mkComp (width p) (INR (pixel_of p) * dvbin) (height p)) ps) /\
     from_spectrum voigt realtol sattau tau ps /\ (length ps <= length tau)%nat /\
     forall j, (j < length tau)%nat -> fitted voigt (length tau) ps j < sattau -> left_over voigt tau ps j <= realtol) \/
  (search dvbin voigt bounded fuel tol sattau tau = Raises /\
   exists ps i, from_spectrum voigt realtol sattau tau ps /\ (i < length tau)%nat /\ realtol < left_over voigt tau ps i /\
     (length tau = 1%nat \/ one_hump (length tau) (seen_from (length tau) i (left_over voigt tau ps)))).
Proof. exact C61_search_aux. Qed.
Print Assumptions C61_search.

(** C61: the width of a peak is sought by least squares: what is minimised is the squared difference of the transmitted fluxes, of the
    spectrum seen from the peak and of the profile of that width, over a range of pixels on both sides of the peak which does not depend
    on the width. *)
Theorem C61_objective : forall dvbin voigt a tau, 0 < dvbin -> 0 < a -> nth (length tau / 2) tau 0 = a -> (2 <= length tau)%nat ->
  ~ one_hump (length tau) (fun i => nth i tau 0) ->
  exists lo hi, (lo < length tau / 2 < hi)%nat /\ (hi <= length tau)%nat /\
    forall w, 0 < w -> peaked voigt w ->
    fun_min dvbin voigt w a tau =
      Some (rsum (map (fun i => (exp (- nth i tau 0) - exp (- (a * voigt w (Z.of_nat i - Z.of_nat (length tau / 2))%Z))) ^ 2) (seq lo (hi - lo)))).
Proof. exact C61_objective_aux. Qed.
Print Assumptions C61_objective.

(** A spectrum which is a single hump around its middle pixel, its ends being equal, cannot be fitted. *)
Theorem C61_one_hump_refuted : forall dvbin voigt bounded tol sattau tau fuel,
  0 < dvbin -> (forall w, 1 <= w <= 120 -> peaked voigt w) -> honest bounded -> 0 < tol -> (length tau <= fuel)%nat ->
  let top := nth (length tau / 2) tau 0 in
  (2 <= length tau)%nat -> one_hump (length tau) (fun i => nth i tau 0) ->
  (forall j, (j < length tau)%nat -> j <> (length tau / 2)%nat -> nth j tau 0 < top) -> tol * Rmax 1 top < top ->
  search dvbin voigt bounded fuel tol sattau tau = Raises.
Proof. exact C61_one_hump_aux. Qed.
Print Assumptions C61_one_hump_refuted.

(** C62: for every minimiser that returns as many numbers as it was given, the re-fit keeps the first [total]
    peaks, re-fitted together from the widths, positions and heights of the search: at least two if there are
    two; every peak beyond the second was significant and every one but the last converged; and the next one,
    if any, was not significant or the last one did not converge.  The assertion on the size never fails. *)
Theorem C62_refit : forall simplex signif cs (F : nat -> found),
  (forall k, simplex (map c_width (firstn k cs) ++ map c_mean (firstn k cs) ++ map c_amp (firstn k cs)) = Some (F k) /\
     length (r_x (F k)) = (3 * length (firstn k cs))%nat) ->
  exists total, refit simplex signif cs = Some (total, F total) /\
    (Nat.min 2 (length cs) <= total <= length cs)%nat /\
    (forall k, (3 <= k <= total)%nat -> significant signif (fun k => r_fun (F k)) k) /\
    (forall k, (3 <= k < total)%nat -> r_ok (F k) = true) /\
    (total = length cs \/ ((3 <= total)%nat /\ r_ok (F total) = false) \/ ~ significant signif (fun k => r_fun (F k)) (S total)).
Proof. exact C62_refit_aux. Qed.
Print Assumptions C62_refit.

(** Every second peak improves the fit at least by the factor [signif]. *)
Theorem C62_quality : forall signif f total, 0 <= signif -> (forall k, 0 <= f k) ->
  (forall k, (3 <= k <= total)%nat -> significant signif f k) ->
  forall j, ((2 + 2 * j <= total)%nat -> f (2 + 2 * j)%nat <= signif ^ j * f 2%nat) /\
            ((3 + 2 * j <= total)%nat -> f (3 + 2 * j)%nat <= 2 * signif ^ (S j) * f 2%nat).
Proof. exact C62_quality_aux. Qed.
Print Assumptions C62_quality.

(** A third peak is kept even if the fit with it is up to 1.9 times worse. *)
Theorem C62_worse_refuted : forall c1 c2 c3 (f2 f3 : R), 0 < f2 -> f2 < f3 -> f3 <= 1.9 * f2 ->
  exists simplex r, (forall x, exists r, simplex x = Some r /\ length (r_x r) = length x) /\
    (exists r2, simplex (inputs 2 [c1; c2; c3]) = Some r2 /\ r_fun r2 = f2) /\
    refit simplex 0.95 [c1; c2; c3] = Some (3%nat, r) /\ r_fun r = f3.
Proof. exact C62_worse_aux. Qed.
Print Assumptions C62_worse_refuted.

(** The whole fit succeeds exactly when the search does, and reports between two and all of the peaks found. *)
Theorem C62_do_fit : forall dvbin voigt bounded simplex fuel tol signif sattau tau,
  0 < dvbin -> (2 <= length tau)%nat ->
  (forall x, exists r, simplex x = Some r /\ length (r_x r) = length x) ->
  (search dvbin voigt bounded fuel tol sattau tau = Raises -> do_fit dvbin voigt bounded simplex fuel tol signif sattau tau = Raises) /\
  (forall cs, search dvbin voigt bounded fuel tol sattau tau = Done cs ->
   exists comps, do_fit dvbin voigt bounded simplex fuel tol signif sattau tau = Done comps /\
     (Nat.min 2 (length cs) <= length comps <= length cs)%nat /\
     (forall c, In c comps -> 0 <= c_mean c < (INR (length tau) - 1) * dvbin /\ 0 <= c_width c)).
Proof. exact C62_do_fit_aux. Qed.
Print Assumptions C62_do_fit.

(** C63: reported positions lie between 0 and the last pixel, widths are not negative. *)
Theorem C63_ranges : forall dvbin n total x c, 0 < dvbin -> (2 <= n)%nat -> In c (finish dvbin n total x) ->
  0 <= c_mean c < (INR n - 1) * dvbin /\ 0 <= c_width c.
Proof. exact C63_ranges_aux. Qed.
Print Assumptions C63_ranges.

(** The fitted profile is the one that was minimised if the minimiser left all peaks below the last pixel. *)
Theorem C63_profile : forall dvbin voigt n total x, 0 < dvbin -> (2 <= n)%nat -> length x = (3 * total)%nat ->
  (forall i, (i < total)%nat -> - ((INR n - 1) * dvbin) <= nth (total + i) x 0 < (INR n - 1) * dvbin) ->
  get_fitted_profile dvbin voigt n (finish dvbin n total x) = profile_multiple dvbin voigt n (split_inputs (length x / 3) x).
Proof. exact C63_profile_aux. Qed.
Print Assumptions C63_profile.

(** A peak in the last pixel is reported and drawn in the first one. *)
Theorem C63_last_pixel_refuted : forall dvbin voigt n w a, 0 < dvbin -> (2 <= n)%nat -> 0 < w -> peaked voigt w -> 0 < a ->
  let mean := (INR n - 1) * dvbin in
  (exists p, profile_multiple dvbin voigt n [mkComp w mean a] = Some p /\ nth (n - 1) p 0 = a /\ nth 0 p 0 < a) /\
  finish dvbin n 1 [w; mean; a] = [mkComp w 0 a] /\
  (exists p, get_fitted_profile dvbin voigt n (finish dvbin n 1 [w; mean; a]) = Some p /\ nth 0 p 0 = a /\ nth (n - 1) p 0 < a).
Proof. exact C63_last_pixel_aux. Qed.
Print Assumptions C63_last_pixel_refuted.

(** Column densities of positive heights are positive and grow with the height; a height of the other sign
    has the same profile but a negative column density. *)
Theorem C63_density : forall unit fnorm b a, 0 < unit -> 0 < b -> 0 < a -> 0 < fnorm b ->
  0 < get_column_density unit fnorm b a /\
  forall a', a < a' -> get_column_density unit fnorm b a < get_column_density unit fnorm b a'.
Proof. exact C63_density_aux. Qed.
Print Assumptions C63_density.

(** A line of column density N and width b has the height sigma c / (sqrt(pi) b) N H(b) in the spectrum (absorption.cpp:246,
    c = 299792.458 km/s); the column density reported for this height and width is N but for the rounded speed of
    light of the fitter, 0.27% too much. *)
Theorem C63_recovered : forall sigma fnorm b N, 0 < sigma -> 0 < b -> fnorm b <> 0 ->
  let peak := sigma / sqrt PI * (299792.458 / b) * N * fnorm b in
  get_column_density (density_unit sigma) fnorm b peak = N * (299792.458 / 299000).
Proof. exact C63_recovered_aux. Qed.
Print Assumptions C63_recovered.

Theorem C63_sign_refuted : forall dvbin voigt n w mean a unit fnorm b,
  voigt_profile dvbin voigt n w mean (- a) = voigt_profile dvbin voigt n w mean a /\
  get_column_density unit fnorm b (- a) = - get_column_density unit fnorm b a.
Proof. exact C63_sign_aux. Qed.
Print Assumptions C63_sign_refuted.

(** After the first get_systems the i-th column density, position and width are those of the i-th component in
    order of position. *)
Theorem C63_pairs : forall unit fnorm cs,
  let s := mkState (map c_width cs) (map c_mean cs) (map c_amp cs) in
  exists sorted, Permutation cs sorted /\ StronglySorted (fun a b => c_mean a <= c_mean b) sorted /\
    let '(colden, pos, s') := systems_start unit fnorm s in
    colden = map (fun c => get_column_density unit fnorm (Rabs (c_width c)) (c_amp c)) sorted /\
    pos = map c_mean sorted /\ get_b_params s' = map (fun c => Rabs (c_width c)) sorted.
Proof. exact C63_pairs_aux. Qed.
Print Assumptions C63_pairs.

(** A second call gives other column densities. *)
Theorem C63_twice_refuted : forall unit fnorm, 0 < unit -> (forall b, fnorm b = 1) ->
  let cs := [mkComp 1 5 1; mkComp 2 3 1] in
  let s := mkState (map c_width cs) (map c_mean cs) (map c_amp cs) in
  let '(colden, _, s') := systems_start unit fnorm s in
  let '(again, _, _) := systems_start unit fnorm s' in
  colden <> again.
Proof. exact C63_twice_aux. Qed.
Print Assumptions C63_twice_refuted.

(** ** Concrete cases *)

(** A Gaussian profile and a minimiser that always answers 10. *)
Definition bell (w : R) (d : Z) : R := exp (- IZR d ^ 2).
Definition ten (g : R -> option R) : option R := match g 10 with Some _ => Some 10 | None => None end.

Lemma bell_peaked : forall w, peaked bell w.
Proof.
  intros w. unfold peaked, bell. split; [replace (- 0 ^ 2) with 0 by ring; apply exp_0|].
  intros d Hd. split; [apply exp_pos|]. rewrite <- exp_0. apply exp_increasing.
  assert (0 < IZR d ^ 2); [|lra]. rewrite <- Rsqr_pow2. apply Rsqr_pos_lt. apply IZR_neq. assumption.
Qed.

Lemma ten_honest : honest ten.
Proof.
  unfold honest, ten. split.
  - intros g w H. destruct (g 10) as [v|] eqn:E; [|discriminate]. injection H as <-. split; [lra|exists v; assumption].
  - intros g H. destruct (H 10 ltac:(lra)) as (v & E). rewrite E. exists 10. reflexivity.
Qed.

(** A symmetric line: the search raises. *)
Example C61_hump_example : search 1 bell ten 5 (1 / 10) 4 [0; 1; 5; 1; 0] = Raises.
Proof.
  apply C61_one_hump_refuted; [lra|intros; apply bell_peaked|apply ten_honest|lra|cbn; lia|cbn; lia| | |].
  - split; [reflexivity|]. intros k H0 H1. cbn [length Nat.sub] in H1. assert (C : (k = 1 \/ k = 2 \/ k = 3)%nat) by lia.
    destruct C as [->|[->| ->]]; cbn; lra.
  - intros j Hj Hne. cbn in Hj, Hne. assert (C : (j = 0 \/ j = 1 \/ j = 3 \/ j = 4)%nat) by lia.
    destruct C as [->|[->|[->| ->]]]; cbn; lra.
  - cbn. rewrite Rmax_right by lra. lra.
Qed.

(** A spectrum with one peak in the first pixel: the search finds it. *)
Example C61_found_example : exists ps, search 1 bell ten 4 (1 / 10) 4 [3; 0; 0; 0] =
  Done (map (fun p => mkComp (width p) (INR (pixel_of p) * 1) (height p)) ps).
Proof.
  set (tau := [3; 0; 0; 0]). assert (H3 : highest tau 3).
  { split; [left; reflexivity|]. intros x [<-|[<-|[<-|[<-|[]]]]]; lra. }
  destruct (C61_search 1 bell ten (1 / 10) 4 tau 4 3 ltac:(lra) (fun w _ => bell_peaked w) ten_honest ltac:(lra) ltac:(cbn; lia) H3)
    as [(ps & E & _)|(_ & ps & i & (Nd & Fs) & Hi & Hl & St)]; [exists ps; exact E|exfalso].
  rewrite Rmax_right in Hl by lra. cbn [tau length] in Hi.
  assert (T0 : forall j, left_over bell tau [] j = nth j tau 0) by (intros; unfold left_over, fitted, rsum; cbn [map fold_right]; ring).
  destruct ps as [|p ps].
  - rewrite T0 in Hl. assert (i = 0)%nat as -> by (destruct i as [|[|[|[|i]]]]; cbn in Hl; lra || lia).
    destruct St as [C|(_ & C)]; [cbn in C; lia|]. apply (C 1%nat ltac:(lia) ltac:(cbn; lia)).
    unfold seen_from. cbn [tau length Nat.div Nat.divmod fst Nat.sub Nat.add].
    change (left_over bell tau [] 3 <= left_over bell tau [] 2 /\ left_over bell tau [] 3 <= left_over bell tau [] 0).
    rewrite !T0. cbn. lra.
  - destruct (Fs [] p ps eq_refl) as (_ & Hp & Eh & Hh & _). rewrite Rmax_right in Hh by lra. rewrite T0 in Eh.
    assert (P0 : pixel_of p = 0%nat) by (destruct (pixel_of p) as [|[|[|[|k]]]]; [reflexivity|cbn in Eh; lra..|cbn [tau length] in Hp; lia]).
    rewrite P0 in Eh. cbn [tau nth] in Eh.
    assert (L1 : forall j, (j < 4)%nat -> left_over bell tau [p] j <= 0).
    { intros j Hj. unfold left_over, fitted, rsum. cbn [map fold_right]. rewrite P0, Eh. unfold bell.
      destruct (Nat.eq_dec j 0) as [->|Hj0].
      - cbn [tau nth length]. change (arc 4 (Z.of_nat 0) (Z.of_nat 0)) with 0%Z. replace (- 0 ^ 2) with 0 by ring. rewrite exp_0. lra.
      - match goal with |- context [exp ?x] => pose proof (exp_pos x) end.
        assert (nth j tau 0 = 0) by (destruct j as [|[|[|[|j]]]]; [lia|reflexivity..|lia]). lra. }
    destruct ps as [|q ps].
    + specialize (L1 i Hi). lra.
    + destruct (Fs [p] q ps eq_refl) as (_ & Hq & Eq & Hh' & _). rewrite Rmax_right in Hh' by lra. specialize (L1 (pixel_of q) Hq). lra.
Qed.

(** A minimiser that answers with its starting point. *)
Example C62_example : let cs := [mkComp 1 2 3; mkComp 4 5 6; mkComp 7 8 9] in
  exists F, forall k, (fun x => Some (mkFound 1 true x)) (map c_width (firstn k cs) ++ map c_mean (firstn k cs) ++ map c_amp (firstn k cs)) = Some (F k) /\
     length (r_x (F k)) = (3 * length (firstn k cs))%nat.
Proof.
  intros cs. exists (fun k => mkFound 1 true (map c_width (firstn k cs) ++ map c_mean (firstn k cs) ++ map c_amp (firstn k cs))).
  intros k. split; [reflexivity|]. cbn [r_x]. rewrite !app_length, !map_length. lia.
Qed.

Example C63_example : get_fitted_profile 1 bell 4 (finish 1 4 1 [10; -1; 2]) = profile_multiple 1 bell 4 (split_inputs 1 [10; -1; 2]).
Proof.
  apply (C63_profile 1 bell 4 1 [10; -1; 2]); [lra|lia|reflexivity|]. intros i Hi. assert (i = 0)%nat as -> by lia. cbn. lra.
Qed.
