(** C24, C54, C55: the line an observer would use, instrumental smoothing, equivalent widths. *)
From Coq Require Import ZArith List Reals Lra Lia.
From Flocq Require Import Core.Raux.
From Verif Require Import AbsorptionSpec ObserverModel ObserverSpec ObserverProofs.
Import ListNotations.
Local Open Scope R_scope.

(** C24: every sightline gets, unchanged, the spectrum of the first line with the wanted peak, where the
    peak is the largest value of the smoothed spectrum. *)
Theorem C24_choice : forall dvbin fwhm numlos tau, 0 < dvbin -> 0 < fwhm -> tau <> [] ->
  (forall j ii, (j < length tau)%nat -> (ii < numlos)%nat -> nth ii (nth j tau []) [] <> []) ->
  exists out, observer_tau dvbin fwhm numlos tau = Some out /\ length out = numlos /\
    forall ii, (ii < numlos)%nat -> exists peaks k,
      length peaks = length tau /\
      (forall j, (j < length tau)%nat -> exists smoothed,
         res_corr dvbin fwhm (nth ii (nth j tau []) []) = Some smoothed /\ largest (nth j peaks 0) smoothed) /\
      best_line peaks k /\ nth ii out [] = nth ii (nth k tau []) [].
Proof. exact C24_choice_aux. Qed.
Print Assumptions C24_choice.

(** C54: smoothing keeps the number of pixels and the mean, and stays between the smallest and the
    largest value, whatever the ratio of the resolution to the length of the spectrum. *)
Theorem C54_conserved : forall dvbin fwhm l, 0 < dvbin -> 0 < fwhm ->
  exists out, res_corr dvbin fwhm l = Some out /\ length out = length l /\ rsum out = rsum l /\
    forall lo hi, (forall x, In x l -> lo <= x <= hi) -> forall x, In x out -> lo <= x <= hi.
Proof. exact C54_conserved_aux. Qed.
Print Assumptions C54_conserved.

(** Every pixel becomes the mean of the pixels around it, counted periodically, with the weights of a
    Gaussian of full width at half maximum [fwhm], cut off at four standard deviations. *)
Theorem C54_gaussian : forall dvbin fwhm l out i, 0 < dvbin -> 0 < fwhm ->
  res_corr dvbin fwhm l = Some out -> (i < length l)%nat ->
  let g := fun k => exp (- (4 * ln 2 * (IZR k * dvbin / fwhm) ^ 2)) in
  let r := Z.to_nat (Zfloor (4 * fwhm / (dvbin * sqrt (8 * ln 2)) + 1 / 2)) in
  nth i out 0 =
  zsum r (fun k => g k * nth (Z.to_nat ((Z.of_nat i + k) mod Z.of_nat (length l))) l 0) / zsum r g.
Proof. exact C54_gaussian_aux. Qed.
Print Assumptions C54_gaussian.

Theorem C54_shift : forall dvbin fwhm k a b a' b', rotated k a b ->
  res_corr dvbin fwhm a = Some a' -> res_corr dvbin fwhm b = Some b' -> rotated k a' b'.
Proof. exact C54_shift_aux. Qed.
Print Assumptions C54_shift.

Theorem C54_linear : forall dvbin fwhm c a b a' b', length a = length b ->
  res_corr dvbin fwhm a = Some a' -> res_corr dvbin fwhm b = Some b' ->
  res_corr dvbin fwhm (map (fun p => fst p + c * snd p) (combine a b)) = Some (map (fun p => fst p + c * snd p) (combine a' b')).
Proof. exact C54_linear_aux. Qed.
Print Assumptions C54_linear.

(** C55: the equivalent width is the pixel width times the total absorption, the first and the last pixel
    counting half. *)
Theorem C55_formula : forall dvbin light line row, row <> [] ->
  equivalent_width dvbin light line [row] =
  [dvbin / (light / 100000) * line *
     (rsum (map (fun t => 1 - exp (- t)) row) - (1 - exp (- hd 0 row) + (1 - exp (- last row 0))) / 2)].
Proof. exact C55_formula_aux. Qed.
Print Assumptions C55_formula.

Theorem C55_bounds : forall dvbin light line tau, 0 < dvbin -> 0 < light -> 0 < line ->
  (forall row, In row tau -> row <> [] /\ forall t, In t row -> 0 <= t) ->
  Forall2 (fun row w => 0 <= w <= dvbin / (light / 100000) * line * INR (length row - 1)) tau (equivalent_width dvbin light line tau).
Proof. exact C55_bounds_aux. Qed.
Print Assumptions C55_bounds.

Theorem C55_monotone : forall dvbin light line tau tau', 0 < dvbin -> 0 < light -> 0 < line ->
  Forall2 (Forall2 Rle) tau tau' -> Forall2 Rle (equivalent_width dvbin light line tau) (equivalent_width dvbin light line tau').
Proof. exact C55_monotone_aux. Qed.
Print Assumptions C55_monotone.

(** So it is not invariant under a periodic shift: for every spectrum length of at least three, the same
    absorption at the first pixel has half the equivalent width it has at the second. *)
Theorem C55_shift_refuted : forall dvbin light line n t, 0 < dvbin -> 0 < light -> 0 < line -> 0 < t ->
  exists w, 0 < w /\
    equivalent_width dvbin light line [t :: repeat 0 (S (S n))] = [w / 2] /\
    equivalent_width dvbin light line [0 :: t :: repeat 0 (S n)] = [w] /\
    rotated 1 (t :: repeat 0 (S (S n))) (0 :: t :: repeat 0 (S n)).
Proof. exact C55_edge_aux. Qed.
Print Assumptions C55_shift_refuted.

(** Four lines: saturated, two equally good ones, and an invisible one. *)
Example C24_best_example : best_line [5; 2; 2; / 20] 1.
Proof.
  assert (U2 : usable 2) by (unfold usable; lra). assert (V2 : visible 2) by (unfold visible; lra). split.
  - split; [cbn; lia|]. left. split; [exact U2|]. intros i Hi Ui.
    destruct i as [|[|[|[|i]]]]; cbn in *; unfold usable in Ui; try lra; lia.
  - intros i (Hi & [(Ui & _)|[(No & _)|(No & _)]]); [|exfalso; apply (No 1%nat); [cbn; lia|exact U2]|exfalso; apply (No 1%nat); [cbn; lia|exact V2]].
    destruct i as [|i]; [cbn in Ui; unfold usable in Ui; lra|lia].
Qed.

(** One sightline and three lines with uniform absorption. *)
Example C24_example : observer_tau 1 8 1 [[[5; 5; 5]]; [[2; 2; 2]]; [[1; 1; 1]]] = Some [[2; 2; 2]].
Proof.
  set (tau := [[[5; 5; 5]]; [[2; 2; 2]]; [[1; 1; 1]]]).
  destruct (C24_choice 1 8 1 tau) as (out & E & L & H); [lra|lra|discriminate| |].
  { intros j ii Hj Hii. destruct ii; [|lia]. destruct j as [|[|[|j]]]; try discriminate. cbn in Hj. lia. }
  destruct (H O ltac:(lia)) as (peaks & k & Lp & Hp & (W & _) & Eo).
  assert (P : forall j v, (j < 3)%nat -> nth O (nth j tau []) [] = [v; v; v] -> nth j peaks 0 = v).
  { intros j v Hj Ev. destruct (Hp j Hj) as (sm & Es & (Hin & _)). rewrite Ev in Es.
    destruct (C54_conserved 1 8 [v; v; v] ltac:(lra) ltac:(lra)) as (out' & Eo' & _ & _ & B). rewrite Es in Eo'. injection Eo' as <-.
    apply Rle_antisym; apply (B v v); try assumption; intros x Hx; cbn in Hx; destruct Hx as [<-|[<-|[<-|[]]]]; lra. }
  pose proof (P 0%nat 5 ltac:(lia) eq_refl) as P0. pose proof (P 1%nat 2 ltac:(lia) eq_refl) as P1. pose proof (P 2%nat 1 ltac:(lia) eq_refl) as P2.
  assert (U1 : usable (nth 1 peaks 0)) by (rewrite P1; unfold usable; lra).
  assert (V1 : visible (nth 1 peaks 0)) by (rewrite P1; unfold visible; lra).
  assert (Hl : (1 < length peaks)%nat) by (rewrite Lp; cbn; lia).
  assert (Ek : k = 1%nat).
  { destruct W as (Hk & [(Uk & Mk)|[(No & _)|(No & _)]]); [|exfalso; apply (No 1%nat Hl U1)|exfalso; apply (No 1%nat Hl V1)].
    rewrite Lp in Hk. destruct k as [|[|[|k]]]; [exfalso|reflexivity|exfalso|exfalso; cbn in Hk; lia].
    - rewrite P0 in Uk. unfold usable in Uk. lra.
    - specialize (Mk 1%nat Hl U1). rewrite P1, P2 in Mk. lra. }
  rewrite Ek in Eo. destruct out as [|r [|]]; try discriminate. cbn in Eo. rewrite Eo in E. exact E.
Qed.

Example C54_example : exists out, res_corr 1 8 [1; 0; 0; 0] = Some out /\ rsum out = 1 /\ forall x, In x out -> 0 <= x <= 1.
Proof.
  destruct (C54_conserved 1 8 [1; 0; 0; 0] ltac:(lra) ltac:(lra)) as (out & E & _ & T & B). exists out. split; [exact E|].
  split; [rewrite T; cbn; lra|]. apply B. intros x Hx. cbn in Hx. destruct Hx as [<-|[<-|[<-|[<-|[]]]]]; lra.
Qed.

Example C55_example : let row := [1; 2; 0] in row <> [] /\ forall t, In t row -> 0 <= t.
Proof. split; [discriminate|]. intros t Ht. cbn in Ht. destruct Ht as [<-|[<-|[<-|[]]]]; lra. Qed.
