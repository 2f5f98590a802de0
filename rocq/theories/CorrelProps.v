(** Properties C116, C117 and C118: plotted distributions. *)
From Coq Require Import ZArith List Bool Reals Lra Lia.
From Verif Require Import FluxSpec CddfSpec HostsSpec CorrelModel CorrelSpec.
From Verif Require AbsorptionSpec CddfModel MetalModel CorrelProofs CorrelProofs2.
Import ListNotations.
Local Open Scope R_scope.

(** ** C116 *)

(** The array drawn has in row j and column i the number of points whose y lies in bin j and whose x lies in bin i; the bins are equally
    spaced, in the logarithm on a logarithmic axis, between the smallest and the largest value, and drawn at their middle.  Every point lies
    in one bin. *)
Theorem C116_counts : forall (numlos n : nat) (ylog xlog : bool) (sample : R) (pts : list (R * R)), (0 < n)%nat ->
  (xlog = true -> forall x y, In (x, y) pts -> 0 < x) -> (ylog = true -> forall x y, In (x, y) pts -> 0 < y) ->
  exists xlo xhi ylo yhi X Y Zs,
  covers (map (fun p => scale xlog (fst p)) pts) xlo xhi /\ covers (map (fun p => scale ylog (snd p)) pts) ylo yhi /\
  let ex := spaced xlo ((xhi - xlo) / INR n) in
  let ey := spaced ylo ((yhi - ylo) / INR n) in
  plot_2d_contour numlos n ylog xlog sample (map fst pts) (map snd pts) =
    Some (X, Y, Zs, [INR numlos / sample * 0.15; INR numlos / sample * 1; INR numlos / sample * 10]) /\
  length X = n /\ length Y = n /\ length Zs = n /\
  (forall i, (i < n)%nat -> nth i X 0 = unscale xlog ((ex i + ex (S i)) / 2) /\ nth i Y 0 = unscale ylog ((ey i + ey (S i)) / 2)) /\
  (forall i j, (i < n)%nat -> (j < n)%nat -> length (nth j Zs []) = n /\
     exists m, number (fun p => within ex n i (scale xlog (fst p)) /\ within ey n j (scale ylog (snd p))) pts m /\ nth i (nth j Zs []) 0 = INR m) /\
  (forall p, In p pts -> exists i j, (i < n)%nat /\ (j < n)%nat /\ within ex n i (scale xlog (fst p)) /\ within ey n j (scale ylog (snd p)) /\
     forall i' j', (i' < n)%nat -> (j' < n)%nat -> within ex n i' (scale xlog (fst p)) -> within ey n j' (scale ylog (snd p)) -> i' = i /\ j' = j).
Proof. exact CorrelProofs.C116_counts_aux. Qed.
Print Assumptions C116_counts.

(** The array adds up to the number of points. *)
Theorem C116_total : forall numlos n ylog xlog sample (pts : list (R * R)) X Y Zs levels, (0 < n)%nat ->
  (xlog = true -> forall x y, In (x, y) pts -> 0 < x) -> (ylog = true -> forall x y, In (x, y) pts -> 0 < y) ->
  plot_2d_contour numlos n ylog xlog sample (map fst pts) (map snd pts) = Some (X, Y, Zs, levels) ->
  total (map total Zs) = INR (length pts).
Proof. exact CorrelProofs.C116_total_aux. Qed.
Print Assumptions C116_total.

(** One value which is not positive on a logarithmic axis and nothing is drawn. *)
Theorem C116_errors : forall numlos n ylog xlog sample (pts : list (R * R)),
  (xlog = true /\ exists x y, In (x, y) pts /\ x <= 0) \/ (ylog = true /\ exists x y, In (x, y) pts /\ y <= 0) ->
  plot_2d_contour numlos n ylog xlog sample (map fst pts) (map snd pts) = None.
Proof. exact CorrelProofs.C116_errors_aux. Qed.
Print Assumptions C116_errors.

(** The plot of metallicity against halo mass draws the sightlines with a host and a metallicity above 1e-4 at the mass plus 0.1, on two
    logarithmic axes with ten bins each. *)
Theorem C116_mass : forall numlos mass rows pts, hosted_points (fun h => mass h + 0.1) rows pts ->
  plot_Z_vs_mass numlos mass rows = plot_2d_contour numlos 10 true true 40 (map fst pts) (map snd pts).
Proof. exact CorrelProofs.C116_mass_aux. Qed.
Print Assumptions C116_mass.

(** It never fails for masses which are not negative, whatever the metallicities (NaN, zero) are, and draws all of these sightlines. *)
Theorem C116_complete : forall numlos mass rows pts, (forall h q, In (h, q) rows -> (0 < h)%Z -> 0 <= mass h) ->
  hosted_points (fun h => mass h + 0.1) rows pts ->
  exists X Y Zs levels, plot_Z_vs_mass numlos mass rows = Some (X, Y, Zs, levels) /\ length Zs = 10%nat /\ total (map total Zs) = INR (length pts).
Proof. exact CorrelProofs.C116_complete_aux. Qed.
Print Assumptions C116_complete.

(** Other quantities against the virial velocity: no selection but the host. *)
Theorem C116_velocity : forall numlos vel log rows pts, pts = map (fun r => (vel (fst r) + 0.1, snd r)) (filter (fun r => (0 <? fst r)%Z) rows) ->
  plot_xx_vs_mass numlos vel log rows = plot_2d_contour numlos 10 log true 40 (map fst pts) (map snd pts).
Proof. exact CorrelProofs.C116_velocity_aux. Qed.
Print Assumptions C116_velocity.

(** Not every sightline with a host is drawn: those of halo 0 are not, although -1 is the mark for no host. *)
Theorem C116_every_host_refuted : exists numlos mass rows,
  (forall h q, In (h, q) rows -> h <> (-1)%Z /\ 0 < mass h /\ q = MetalModel.Num 1) /\ rows <> [] /\
  exists X Y Zs levels, plot_Z_vs_mass numlos mass rows = Some (X, Y, Zs, levels) /\ total (map total Zs) = 0.
Proof.
  exists 1%nat, (fun _ => 1), [(0%Z, MetalModel.Num 1)]. split; [|split; [discriminate|]].
  - intros h q [E|[]]. injection E as <- <-. split; [lia|]. split; [lra|reflexivity].
  - destruct (C116_complete 1 (fun _ => 1) [(0%Z, MetalModel.Num 1)] []) as [X [Y [Zs [l [E [_ T]]]]]].
    + intros h q [E|[]] K. lra.
    + apply hosted_first; [lia|constructor].
    + exists X, Y, Zs, l. split; [exact E|exact T].
Qed.
Print Assumptions C116_every_host_refuted.

(** Two points, on linear axes with two bins: they are drawn on the diagonal. *)
Example two_points : exists xlo xhi, covers (map (fun p => scale false (fst p)) [(0, 5); (1, 7)]) xlo xhi /\ xlo = 0 /\ xhi = 1.
Proof.
  exists 0, 1. split; [|split; reflexivity]. apply covers_range; cbn; auto; [lra|]. intros y [<-|[<-|[]]]; lra.
Qed.
Example two_points_total : forall X Y Zs levels,
  plot_2d_contour 3 2 false true 40 (map fst [(1, 5); (2, - (7))]) (map snd [(1, 5); (2, - (7))]) = Some (X, Y, Zs, levels) -> total (map total Zs) = 2.
Proof.
  intros X Y Zs levels E. rewrite (C116_total 3 2 false true 40 [(1, 5); (2, - (7))] X Y Zs levels); [cbn; lra|lia| |discriminate|exact E].
  intros _ x y [P|[P|[]]]; injection P as <- <-; lra.
Qed.
Example hosts_met : hosted_points (fun h => IZR h + 0.1) [(2%Z, MetalModel.Num 1); ((-1)%Z, MetalModel.Num 1); (3%Z, MetalModel.NotFinite)] [(2 + 0.1, 1)].
Proof. apply hosted_point; [lia|lra|]. apply hosted_first; [lia|]. apply hosted_nan. constructor. Qed.

(** ** C117 *)

(** The distribution of metallicities: in each of the equal bins of the logarithm from -3 to 0 the number of sightlines over the width and the
    number of all that are counted; sightlines with no, infinite or NaN metallicity, or one outside of the range, are left out of both; the
    curve has integral one. *)
Theorem C117_metallicity : forall n met, (0 < n)%nat ->
  let w := 3 / INR n in
  let e := spaced (- (3)) w in
  exists t, number (fun q => exists x, q = MetalModel.Num x /\ 0 < x /\ - (3) <= lg x <= 0) met t /\
    (t = 0%nat -> plot_metallicity (S n) met = None) /\
    ((0 < t)%nat -> exists X Y, plot_metallicity (S n) met = Some (X, Y) /\ length X = n /\ length Y = n /\
      (forall i, (i < n)%nat -> nth i X 0 = - (3) + (INR i + / 2) * w /\
         exists m, number (lg_within e n i) met m /\ nth i Y 0 = INR m / w / INR t) /\
      total (map (fun y => y * w) Y) = 1).
Proof. exact CorrelProofs2.C117_metallicity_aux. Qed.
Print Assumptions C117_metallicity.

(** The ratio of the metallicity of an ion to that of all metals: the same for the logarithm of the ratio from -1 to 1. *)
Theorem C117_ratio : forall n pairs, (0 < n)%nat ->
  let w := 2 / INR n in
  let e := spaced (- (1)) w in
  exists t, number (fun p => exists m x, p = (MetalModel.Num m, MetalModel.Num x) /\ 0 < m /\ 0 < x /\ - (1) <= lg (x / m) <= 1) pairs t /\
    (t = 0%nat -> plot_ion_corr (S n) pairs = None) /\
    ((0 < t)%nat -> exists X Y, plot_ion_corr (S n) pairs = Some (X, Y) /\ length X = n /\ length Y = n /\
      (forall i, (i < n)%nat -> nth i X 0 = - (1) + (INR i + / 2) * w /\
         exists m, number (ratio_within e n i) pairs m /\ nth i Y 0 = INR m / w / INR t) /\
      total (map (fun y => y * w) Y) = 1).
Proof. exact CorrelProofs2.C117_ratio_aux. Qed.
Print Assumptions C117_ratio.

(** The solar metallicity that both are measured in does not matter. *)
Theorem C117_units : forall n pairs c, 0 < c ->
  let f := fun q => match q with MetalModel.Num x => MetalModel.Num (c * x) | MetalModel.NotFinite => MetalModel.NotFinite end in
  plot_ion_corr n (map (fun p => (f (fst p), f (snd p))) pairs) = plot_ion_corr n pairs.
Proof. exact CorrelProofs2.C117_units_aux. Qed.
Print Assumptions C117_units.

(** Adding a sightline of more than solar metallicity changes nothing, so the curve is not a fraction of all sightlines. *)
Theorem C117_all_sightlines_refuted : exists n met Y X, (0 < n)%nat /\ plot_metallicity (S n) met = Some (X, Y) /\
  total (map (fun y => y * (3 / INR n)) Y) = 1 /\
  exists m, number (fun q => exists x, q = MetalModel.Num x /\ 0 < x /\ - (3) <= lg x <= 0) met m /\ (m < length met)%nat.
Proof.
  set (met := [MetalModel.Num 1; MetalModel.Num 2]). assert (L1 : lg 1 = 0) by (unfold lg; rewrite ln_1; lra).
  assert (L2 : 0 < lg 2).
  { unfold lg. apply Rdiv_lt_0_compat; rewrite <- ln_1; apply ln_increasing; lra. }
  assert (M1 : number (fun q => exists x, q = MetalModel.Num x /\ 0 < x /\ - (3) <= lg x <= 0) met 1).
  { constructor 2; [exists 1; split; [reflexivity|]; rewrite L1; lra|]. constructor 3; [|constructor]. intros [x [Q [_ B]]]. injection Q as <-. lra. }
  destruct (C117_metallicity 1 met ltac:(lia)) as [t [T [_ S]]].
  assert (t = 1%nat) by (refine (HostsProofs.number_det _ _ _ T _ M1)). subst t.
  destruct (S ltac:(lia)) as [X [Y [E [_ [_ [_ TT]]]]]]. exists 1%nat, met, Y, X. split; [lia|]. split; [exact E|]. split; [exact TT|].
  exists 1%nat. split; [exact M1|cbn; lia].
Qed.
Print Assumptions C117_all_sightlines_refuted.

Example ratio_met : ratio_within (spaced (- (1)) 1) 2 1 (MetalModel.Num 4, MetalModel.Num 4).
Proof.
  exists 4, 4. split; [reflexivity|]. split; [lra|]. split; [lra|]. unfold within, spaced, lg. replace (4 / 4) with 1 by field. rewrite ln_1. cbn [INR]. lra.
Qed.

(** ** C118 *)

(** Without the moment the curve is the column density function on a range one dex wider at both ends. *)
Theorem C118_plain : forall dlogN minN maxN dist discarded line close dvbin rho,
  plot_cddf dlogN minN maxN dist discarded line close dvbin false rho = CddfModel.column_density_function (minN - 1) (maxN + 1) dlogN dist discarded line close dvbin rho.
Proof. exact CorrelProofs2.C118_plain_aux. Qed.
Print Assumptions C118_plain.

(** The first moment times the width of the bin and the total path is the number of absorbers in the bin times its middle; it is the sum of
    their column densities up to a factor that depends on the width of the bins only. *)
Theorem C118_moment : forall dlogN minN maxN dist discarded line close dvbin rho,
  0 < dlogN -> minN - 1 < maxN + 1 -> 0 < dist -> rho <> [] ->
  exists a n X Y,
    absorbers_of line (close / dvbin) rho a /\
    minN - 1 + INR n * dlogN < maxN + 1 <= minN - 1 + INR (S n) * dlogN /\
    plot_cddf dlogN minN maxN dist discarded line close dvbin true rho = (X, Y) /\ length X = n /\ length Y = n /\
    forall i, (i < n)%nat ->
      let lo := bin_edge (minN - 1) dlogN i in
      let hi := bin_edge (minN - 1) dlogN (S i) in
      let estimate := nth i Y 0 * (hi - lo) * (dist * INR (length rho + discarded)) in
      nth i X 0 = (lo + hi) / 2 /\
      (exists m, number (falls_into (minN - 1) dlogN n i) a m /\ estimate = INR m * ((lo + hi) / 2)) /\
      forall s, sum_of (falls_into (minN - 1) dlogN n i) a s ->
        s * ((1 + / Rpower 10 dlogN) / 2) <= estimate <= s * ((1 + Rpower 10 dlogN) / 2).
Proof. exact CorrelProofs2.C118_moment_aux. Qed.
Print Assumptions C118_moment.

Example sum_met : sum_of (falls_into 0 1 1 0) [5; 20; 2] (5 + (2 + 0)).
Proof.
  assert (E0 : bin_edge 0 1 0 = 1) by (unfold bin_edge; replace (0 + INR 0 * 1) with 0 by (cbn; lra); apply Rpower_O; lra).
  assert (E1 : bin_edge 0 1 1 = 10) by (unfold bin_edge; replace (0 + INR 1 * 1) with 1 by (cbn; lra); apply Rpower_1; lra).
  apply sum_yes; [unfold falls_into; rewrite E0, E1; lra|]. apply sum_no; [unfold falls_into; rewrite E0, E1; lra|].
  apply sum_yes; [unfold falls_into; rewrite E0, E1; lra|]. constructor.
Qed.
