(** C70: the curvature of the flux. *)
From Coq Require Import List Reals Bool ZArith Lra Lia.
From Verif Require Import RescaleSpec SightlineSpec CurveModel CurveSpec CurveProofs CurveProofs2 CurveProofs3 CurveProofs4.
Import ListNotations.
Local Open Scope R_scope.

(** C70 (one value per section with curvature): the mean over the pixels with flux between 0.1 and 0.9 of |F''| / (1 + F'^2)^(3/2), the
    derivatives being those of the parabola through each pixel and its neighbours among these; sections without are left out. *)
Theorem C70_curvature : forall vmax nbins flux, 0 < vmax -> Forall (fun row => (length row <= nbins)%nat) flux ->
  exists cs out, compute_curvature vmax nbins flux = Some out /\ Forall2 (mean_curvature (vmax / (INR nbins - 1))) flux cs /\ positives cs out.
Proof. exact C70_curvature_aux. Qed.
Print Assumptions C70_curvature.

(** C70 (the value is determined). *)
Theorem C70_determined : forall step row c c', 0 < step -> mean_curvature step row c -> mean_curvature step row c' -> c = c'.
Proof. exact curvature_unique. Qed.
Print Assumptions C70_determined.

(** C70 (exact for parabolas, whatever pixels are out of range). *)
Theorem C70_parabola : forall vmax nbins row l a b c, 0 < vmax -> (length row <= nbins)%nat -> middling 0 row l -> (2 < length l)%nat ->
  c <> 0 -> let x i := INR i * (vmax / (INR nbins - 1)) in
  Forall (fun q => snd q = parabola a b c (x (fst q))) l ->
  compute_curvature vmax nbins [row] = Some [average (map (fun q => 2 * Rabs c / Rpower (1 + (b + 2 * c * x (fst q)) ^ 2) (3 / 2)) l)].
Proof. exact C70_parabola_aux. Qed.
Print Assumptions C70_parabola.

(** C70 (nothing for a straight line). *)
Theorem C70_line : forall vmax nbins row l a b, 0 < vmax -> (length row <= nbins)%nat -> middling 0 row l ->
  Forall (fun q => snd q = a + b * (INR (fst q) * (vmax / (INR nbins - 1)))) l -> compute_curvature vmax nbins [row] = Some [].
Proof. exact C70_line_aux. Qed.
Print Assumptions C70_line.

(** C70 (symmetries): absorption and flux exchanged, or the spectra read backwards, give the same. *)
Theorem C70_symmetric : forall vmax nbins flux, 0 < vmax -> Forall (fun row => (length row <= nbins)%nat) flux ->
  compute_curvature vmax nbins (map (map (fun f => 1 - f)) flux) = compute_curvature vmax nbins flux /\
  compute_curvature vmax nbins (map (@rev R) flux) = compute_curvature vmax nbins flux.
Proof. exact C70_symmetric_aux. Qed.
Print Assumptions C70_symmetric.

(** C70 (the whole): the spectra are cut, each section is divided by its maximum, and all are raised to the one power which brings the
    mean flux of the pixels with flux to that observed at this redshift. *)
Theorem C70_rescaled : forall parts vmax velfac box atime section_size nbins flux,
  (forall tau, divided tau (parts tau)) -> 0 < box -> 0 < velfac -> vmax = box * velfac -> (2 <= nbins)%nat ->
  Forall (fun row => length row = nbins /\ Forall (fun x => 0 <= x) row) flux ->
  let size := if Req_EM_T section_size 0 then box else section_size in
  box / (INR nbins - 1) <= size <= box ->
  exists m k secs,
    (1 <= m)%nat /\ (1 <= k)%nat /\ INR m <= box / size < INR m + 1 /\ INR k <= (INR nbins - 1) * size / box < INR k + 1 /\
    sectioned m k flux secs /\
    forall sstar, Exists (fun x => 0 < x < 1) (concat secs) -> Forall (fun x => 0 < x -> exp (- (1e30)) <= x) (concat secs) ->
      / 10000000000 <= sstar -> average (map (fun x => Rpower x sstar) (bright secs)) = exp (- (0.0023 * Rpower (1 / atime) 3.65)) ->
      exists s cs out enough, 0 < s <= sstar /\
        0 <= average (map (fun x => Rpower x s) (bright secs)) - exp (- (0.0023 * Rpower (1 / atime) 3.65)) <= 0.00001 / (1 - 0.00001) /\
        Forall2 (mean_curvature (vmax / (INR nbins - 1))) (powered s secs) cs /\ positives cs out /\
        forall fuel, (enough <= fuel)%nat -> get_curvature parts fuel vmax velfac box atime section_size nbins flux = Some out.
Proof. exact C70_rescaled_aux. Qed.
Print Assumptions C70_rescaled.

(** C70 (no features): constant spectra, also entirely dark ones, have no curvature and raise nothing. *)
Theorem C70_featureless : forall parts vmax velfac box atime section_size nbins flux fuel,
  (forall tau, divided tau (parts tau)) -> 0 < box -> 0 < velfac -> vmax = box * velfac -> (2 <= nbins)%nat -> (0 < fuel)%nat ->
  Forall (fun row => length row = nbins /\ exists v, 0 <= v /\ Forall (fun x => x = v) row) flux ->
  let size := if Req_EM_T section_size 0 then box else section_size in
  box / (INR nbins - 1) <= size <= box ->
  get_curvature parts fuel vmax velfac box atime section_size nbins flux = Some [].
Proof. exact C70_featureless_aux. Qed.
Print Assumptions C70_featureless.

(** C70 (the continuum does not matter): a positive factor on each spectrum changes nothing. *)
Theorem C70_continuum : forall parts fuel vmax velfac box atime section_size nbins flux flux',
  Forall2 (fun row row' => exists c, 0 < c /\ row' = map (Rmult c) row) flux flux' ->
  get_curvature parts fuel vmax velfac box atime section_size nbins flux' = get_curvature parts fuel vmax velfac box atime section_size nbins flux.
Proof. exact C70_continuum_aux. Qed.
Print Assumptions C70_continuum.

(** C70 (gaps are bridged): straight pieces on both sides of a gap have curvature. *)
Theorem C70_gap_refuted : exists vmax nbins row c, 0 < vmax /\ (length row <= nbins)%nat /\
  (forall i, (i + 2 < length row)%nat -> (forall j, (i <= j <= i + 2)%nat -> 0.1 < nth j row 0 < 0.9) ->
    nth (i + 1) row 0 - nth i row 0 = nth (i + 2) row 0 - nth (i + 1) row 0) /\
  compute_curvature vmax nbins [row] = Some [c] /\ 0 < c.
Proof.
  destruct wedge_curved as (c & E & P). exists 6, 7%nat, wedge, c. split; [lra|]. split; [cbn; lia|]. split; [|split; assumption].
  intros i Hi H. unfold wedge in *. cbn [length] in Hi.
  do 5 (destruct i as [|i]; [try (cbn [nth plus]; lra); exfalso; assert (X := H 3%nat ltac:(lia)); cbn [nth] in X; lra|]). lia.
Qed.
Print Assumptions C70_gap_refuted.

(** C70 (which section a value belongs to cannot be told). *)
Theorem C70_order_refuted : exists vmax nbins a b c, a <> b /\
  compute_curvature vmax nbins [a; b] = Some [c] /\ compute_curvature vmax nbins [b; a] = Some [c].
Proof.
  destruct bump_curved as (c & E). exists 6, 7%nat, bump, [0; 0; 0], c. split; [unfold bump; intros X; injection X; lra|].
  change [bump; [0; 0; 0]] with ([bump] ++ [[0; 0; 0]]). change [[0; 0; 0]; bump] with ([[0; 0; 0]] ++ [bump]).
  rewrite !compute_app, E, dark_flat. split; reflexivity.
Qed.
Print Assumptions C70_order_refuted.

(** C70 (spectra longer than the object's fail). *)
Theorem C70_long_refuted : exists vmax nbins row, 0 < vmax /\ length row = S nbins /\ compute_curvature vmax nbins [row] = None.
Proof. exists 2, 3%nat, [0.2; 0.5; 0.2; 0.5]. split; [lra|]. split; [reflexivity|exact too_long]. Qed.
Print Assumptions C70_long_refuted.

(** The hypotheses can be met. *)
Example curve_parabola : middling 0 bump [(0%nat, 0.2); (1%nat, 0.5); (2%nat, 0.2)] /\
  Forall (fun q => snd q = parabola 0.2 0.6 (-0.3) (INR (fst q) * (6 / (INR 7 - 1)))) [(0%nat, 0.2); (1%nat, 0.5); (2%nat, 0.2)].
Proof. split; [exact bump_range|]. rewrite unit_step. repeat (constructor; [unfold parabola; cbn [fst snd INR]; lra|]). constructor. Qed.

(** A section of two pixels for which the power is one. *)
Example curve_rescaled : let x := 2 * exp (- (0.0023 * Rpower (1 / 1) 3.65)) - 1 in let secs := [[1; x]] in
  Exists (fun x => 0 < x < 1) (concat secs) /\ Forall (fun x => 0 < x -> exp (- (1e30)) <= x) (concat secs) /\
  average (map (fun x => Rpower x 1) (bright secs)) = exp (- (0.0023 * Rpower (1 / 1) 3.65)).
Proof.
  intros x secs. assert (E : Rpower (1 / 1) 3.65 = 1).
  { replace (1 / 1) with 1 by field. unfold Rpower. rewrite ln_1, Rmult_0_r. apply exp_0. }
  assert (B : 0.99 < x < 1).
  { unfold x. rewrite E. assert (L := exp_ineq1_le (- (0.0023 * 1))). assert (U : exp (- (0.0023 * 1)) < exp 0) by (apply exp_increasing; lra).
    rewrite exp_0 in U. lra. }
  split. { unfold secs. cbn [concat app]. right. left. lra. }
  split.
  { assert (Small : exp (- (1e30)) <= 0.5).
    { assert (Big : 1 < 1e30) by (rewrite <- mult_IZR; apply IZR_lt; reflexivity).
      assert (L : exp (- (1e30)) < exp (-1)) by (apply exp_increasing; replace (-1) with (- (1)) by ring; apply Ropp_lt_contravar; exact Big). assert (M : exp (-1) * exp 1 = 1) by (rewrite <- exp_plus; replace (-1 + 1) with 0 by ring; apply exp_0).
      assert (N := exp_ineq1_le 1). assert (0 < exp (-1)) by apply exp_pos. nra. }
    unfold secs. cbn [concat app]. repeat constructor; intros; lra. }
  unfold bright, secs. cbn [concat app filter]. destruct (Rlt_dec 0 1); [|lra]. destruct (Rlt_dec 0 x); [|lra].
  cbn [map]. rewrite !Rpower_1 by lra. unfold average. cbn [fold_right length INR]. unfold x. field.
Qed.
