(** get_curvature, and cases. *)
From Coq Require Import List Reals Bool ZArith Lra Lia Permutation.
From Flocq Require Import Core.Raux.
From Verif Require Import AbsorptionSpec RescaleModel RescaleSpec RescaleProofs SightlineModel SightlineSpec SightlineProofs CurveModel CurveSpec CurveProofs CurveProofs2 CurveProofs3.
Import ListNotations.
Local Open Scope R_scope.

Lemma filter_all : forall A (f : A -> bool) l, Forall (fun x => f x = true) l -> filter f l = l.
Proof. intros A f l H. induction H; cbn [filter]; [reflexivity|]. rewrite H, IHForall. reflexivity. Qed.

Lemma bright_positive : forall secs, Forall (fun x => 0 < x /\ In x (concat secs)) (bright secs).
Proof.
  intros secs. apply Forall_forall. intros x Hx. unfold bright in Hx. apply filter_In in Hx. destruct Hx as [I P].
  destruct (Rlt_dec 0 x); [split; assumption|discriminate].
Qed.

Lemma transmission_powers : forall s l, Forall (fun x => 0 < x) l -> mean_transmission s (map (fun x => - ln x) l) = average (map (fun x => Rpower x s) l).
Proof.
  intros s l H. unfold mean_transmission, average. rewrite !map_length, map_map. f_equal. induction l as [|x l IH]; [reflexivity|].
  inversion H; subst. cbn [map fold_right]. change (rsum (exp (- (s * - ln x)) :: map (fun x => exp (- (s * - ln x))) l)) with (exp (- (s * - ln x)) + rsum (map (fun x => exp (- (s * - ln x))) l)).
  rewrite IH by assumption. unfold Rpower. f_equal. f_equal. ring.
Qed.

Definition wanted (atime : R) : R := exp (- (0.0023 * Rpower (1 / atime) 3.65)).

Lemma wanted_target : forall atime, exp (- obs_mean_tau (1 / atime - 1)) = wanted atime.
Proof. intros. unfold wanted, obs_mean_tau. replace (1 + (1 / atime - 1)) with (1 / atime) by ring. reflexivity. Qed.

Lemma ln_nonpos : forall x, 0 < x <= 1 -> ln x <= 0.
Proof.
  intros x [H1 H2]. destruct (Req_dec x 1) as [->|N]; [rewrite ln_1; lra|]. rewrite <- ln_1. left. apply ln_increasing; lra.
Qed.

Lemma C70_rescaled_aux : forall parts vmax velfac box atime section_size nbins flux,
  (forall tau, divided tau (parts tau)) -> 0 < box -> 0 < velfac -> vmax = box * velfac -> (2 <= nbins)%nat ->
  Forall (fun row => length row = nbins /\ Forall (fun x => 0 <= x) row) flux ->
  let size := if Req_EM_T section_size 0 then box else section_size in
  box / (INR nbins - 1) <= size <= box ->
  exists m k secs,
    (1 <= m)%nat /\ (1 <= k)%nat /\ INR m <= box / size < INR m + 1 /\ INR k <= (INR nbins - 1) * size / box < INR k + 1 /\
    sectioned m k flux secs /\
    forall sstar, Exists (fun x => 0 < x < 1) (concat secs) -> Forall (fun x => 0 < x -> exp (- (1e30)) <= x) (concat secs) ->
      / 10000000000 <= sstar -> average (map (fun x => Rpower x sstar) (bright secs)) = exp (- (0.0023 * Rpower (1 / atime) 3.65)) ->
      exists s cs out enough, 0 < s <= sstar /\
        0 <= average (map (fun x => Rpower x s) (bright secs)) - exp (- (0.0023 * Rpower (1 / atime) 3.65)) <= 0.00001 / (1 - 0.00001) /\
        Forall2 (mean_curvature (vmax / (INR nbins - 1))) (powered s secs) cs /\ positives cs out /\
        forall fuel, (enough <= fuel)%nat -> get_curvature parts fuel vmax velfac box atime section_size nbins flux = Some out.
Proof.
  intros parts vmax velfac box atime section_size nbins flux Hp Hb Hv Ev Hn Hf size Hs.
  assert (Hf1 : Forall (fun row => length row = nbins) flux) by (eapply Forall_impl; [|exact Hf]; intros r [A _]; exact A).
  assert (Hf2 : Forall (Forall (fun x => 0 <= x)) flux) by (eapply Forall_impl; [|exact Hf]; intros r [_ A]; exact A).
  destruct (sections_ok vmax velfac box size nbins flux Hb Hv Ev Hn Hf1 Hs) as (m & k & secs & E & M1 & K1 & MK & M2 & K2 & Sx).
  exists m, k, secs. split; [exact M1|]. split; [exact K1|]. split; [exact M2|]. split; [exact K2|]. split; [exact Sx|].
  intros sstar Hex Hmin Hst Ht. fold (wanted atime) in *.
  assert (U := pixels_unit m k flux secs Hf2 Sx). assert (BP := bright_positive secs).
  set (u := map (fun x => - ln x) (bright secs)).
  assert (BP0 : Forall (fun x => 0 < x) (bright secs)) by (eapply Forall_impl; [|exact BP]; cbv beta; tauto).
  assert (Um : unmasked 1e30 u = u).
  { unfold unmasked. apply filter_all. apply Forall_forall. intros t Htau. unfold u in Htau. apply in_map_iff in Htau. destruct Htau as (x & <- & Hx).
    rewrite Forall_forall in BP. destruct (BP x Hx) as [P I]. rewrite Forall_forall in Hmin. specialize (Hmin x I P).
    destruct (Rle_dec (- ln x) 1e30) as [_|N]; [reflexivity|]. exfalso. apply N.
    assert (Q : ln (exp (- (1e30))) <= ln x). { destruct Hmin as [Hlt|Heq]; [left; apply ln_increasing; [apply exp_pos|exact Hlt]|right; rewrite Heq; reflexivity]. }
    rewrite ln_exp in Q. clear - Q. apply Ropp_le_cancel. rewrite Ropp_involutive. exact Q. }
  assert (Ab : absorbing (unmasked 1e30 u)).
  { rewrite Um. split.
    - apply Forall_forall. intros t Htau. unfold u in Htau. apply in_map_iff in Htau. destruct Htau as (x & <- & Hx).
      rewrite Forall_forall in BP. destruct (BP x Hx) as [P I]. rewrite Forall_forall in U. specialize (U x I).
      assert (ln x <= 0) by (apply ln_nonpos; lra). lra.
    - apply Exists_exists in Hex. destruct Hex as (x & Hx & Lx). apply Exists_exists. exists (- ln x). split.
      + unfold u. apply (in_map (fun x => - ln x)). unfold bright. apply filter_In. split; [exact Hx|]. destruct (Rlt_dec 0 x); [reflexivity|lra].
      + assert (ln x < ln 1) by (apply ln_increasing; lra). rewrite ln_1 in *. lra. }
  assert (Tr : mean_transmission sstar (unmasked 1e30 u) = wanted atime) by (rewrite Um; unfold u; rewrite transmission_powers by exact BP0; exact Ht).
  destruct (C15_converges_aux u (parts u) (wanted atime) 0.00001 1e30 sstar (Hp u) Ab Tr Hst ltac:(lra)) as (s1 & enough & s & _ & Mf & _ & Sb & Ft).
  rewrite Um in Ft. unfold u in Ft. rewrite transmission_powers in Ft by exact BP0. fold u in Ft.
  assert (Sh : Forall (fun row => (length row <= nbins)%nat) (powered s secs)).
  { unfold powered. rewrite Forall_map. eapply Forall_impl; [|apply (sections_short m k nbins flux secs MK M1 Hf1 Sx)]. intros r Hr. rewrite map_length. exact Hr. }
  assert (Vp : 0 < vmax) by (rewrite Ev; apply Rmult_lt_0_compat; assumption).
  destruct (C70_curvature_aux vmax nbins (powered s secs) Vp Sh) as (cs & out & Ec & F2 & Po).
  exists s, cs, out, enough. split; [exact Sb|]. split; [lra|]. split; [exact F2|]. split; [exact Po|].
  intros fuel Hfu. unfold get_curvature. fold size. cbv zeta. rewrite E. change (filter positive (concat secs)) with (bright secs). fold u.
  rewrite wanted_target, (Mf fuel Hfu).
  replace (map (map (rescaled (Finite s))) secs) with (powered s secs); [exact Ec|].
  unfold powered. apply map_ext. intros r. apply map_ext. intros x. unfold rescaled, positive. destruct (Rlt_dec 0 x); reflexivity.
Qed.

(** ** Nothing but fully transparent or opaque sections *)
Lemma outside_curvature : forall vmax nbins flux, Forall (Forall (fun x => ~ 0.1 < x < 0.9)) flux -> compute_curvature vmax nbins flux = Some [].
Proof.
  intros vmax nbins flux H. unfold compute_curvature.
  assert (E : all_some (map (section_curvature vmax nbins) flux) = Some (map (fun _ => 0) flux)).
  { induction H as [|row flux Hr H IH]; [reflexivity|]. cbn [map all_some]. rewrite IH.
    assert (F : flux_range row = []).
    { unfold flux_range. assert (G : forall i, In i (seq 0 (length row)) -> inside (nth i row 0) = false).
      { intros i Hi. apply in_seq in Hi. destruct (inside (nth i row 0)) eqn:Ei; [|reflexivity]. exfalso. apply inside_spec in Ei.
        rewrite Forall_forall in Hr. apply (Hr (nth i row 0)); [apply nth_In; lia|exact Ei]. }
      induction (seq 0 (length row)) as [|i l IHl]; [reflexivity|]. cbn [filter]. rewrite G by (left; reflexivity). apply IHl. intros j Hj. apply G. right. exact Hj. }
    unfold section_curvature. rewrite F. reflexivity. }
  rewrite E. cbn [option_map]. f_equal. clear. induction flux; cbn [map filter]; [reflexivity|]. destruct (Rlt_dec 0 0); [lra|]. exact IHflux.
Qed.

Lemma wanted_le : forall atime, wanted atime <= 1.
Proof.
  intros. unfold wanted. assert (P : 0 < Rpower (1 / atime) 3.65) by apply exp_pos. generalize dependent (Rpower (1 / atime) 3.65). intros y P.
  rewrite <- exp_0. left. apply exp_increasing. lra.
Qed.

Lemma C70_featureless_aux : forall parts vmax velfac box atime section_size nbins flux fuel,
  (forall tau, divided tau (parts tau)) -> 0 < box -> 0 < velfac -> vmax = box * velfac -> (2 <= nbins)%nat -> (0 < fuel)%nat ->
  Forall (fun row => length row = nbins /\ exists v, 0 <= v /\ Forall (fun x => x = v) row) flux ->
  let size := if Req_EM_T section_size 0 then box else section_size in
  box / (INR nbins - 1) <= size <= box ->
  get_curvature parts fuel vmax velfac box atime section_size nbins flux = Some [].
Proof.
  intros parts vmax velfac box atime section_size nbins flux fuel Hp Hb Hv Ev Hn Hfu Hf size Hs.
  assert (Hf1 : Forall (fun row => length row = nbins) flux) by (eapply Forall_impl; [|exact Hf]; intros r [A _]; exact A).
  destruct (sections_ok vmax velfac box size nbins flux Hb Hv Ev Hn Hf1 Hs) as (m & k & secs & E & M1 & K1 & MK & M2 & K2 & Sx).
  assert (ZO : Forall (Forall (fun x => x = 0 \/ x = 1)) secs).
  { apply Forall_forall. intros sec' Hi. destruct (sectioned_in _ _ _ _ _ Sx Hi) as (i & row & sec & mx & _ & Hr & W & [X1 X2] & ->).
    apply Forall_forall. intros y Hy. apply in_map_iff in Hy. destruct Hy as (x & <- & Hx). rewrite Forall_forall in Hf. destruct (Hf row Hr) as (_ & v & Hv0 & Hc).
    rewrite Forall_forall in Hc. assert (x = v) by (apply Hc; eapply window_in; eassumption). assert (mx = v) by (apply Hc; eapply window_in; eassumption). subst x mx.
    destruct (Req_EM_T v 0); [left; reflexivity|right; field; assumption]. }
  unfold get_curvature. fold size. cbv zeta. rewrite E.
  set (tau := map (fun x => - ln x) (filter positive (concat secs))).
  assert (T0 : Forall (fun t => t = 0 \/ 1e30 < t) tau).
  { apply Forall_forall. intros t Ht. left. unfold tau in Ht. apply in_map_iff in Ht. destruct Ht as (x & <- & Hx). apply filter_In in Hx. destruct Hx as [Hx P].
    apply in_concat in Hx. destruct Hx as (sec & Hi & Hx). rewrite Forall_forall in ZO. specialize (ZO sec Hi). rewrite Forall_forall in ZO.
    destruct (ZO x Hx) as [->| ->]; [unfold positive in P; destruct (Rlt_dec 0 0); [lra|discriminate]|rewrite ln_1; ring]. }
  assert (Out : forall sc, compute_curvature vmax nbins (map (map (rescaled sc)) secs) = Some []).
  { intros sc. apply outside_curvature. rewrite Forall_map. eapply Forall_impl; [|exact ZO]. intros sec Hsec. rewrite Forall_map.
    eapply Forall_impl; [|exact Hsec]. intros x [->| ->]; unfold rescaled, positive.
    - destruct (Rlt_dec 0 0); lra.
    - destruct (Rlt_dec 0 1); [|lra]. destruct sc as [s|].
      + unfold Rpower. rewrite ln_1, Rmult_0_r, exp_0. lra.
      + destruct (Req_EM_T 1 1); lra. }
  destruct tau as [|t0 tau'] eqn:Et.
  - cbn [mean_flux]. apply Out.
  - rewrite C15_degenerate_aux with (1 := Hp (t0 :: tau')); [apply Out| |discriminate|exact T0|exact Hfu].
    rewrite wanted_target. apply wanted_le.
Qed.

(** ** The continuum *)
Lemma fold_Rmax_scale : forall c, 0 < c -> forall l x, fold_left Rmax (map (Rmult c) l) (c * x) = c * fold_left Rmax l x.
Proof.
  intros c Hc. induction l as [|y l IH]; intros x; [reflexivity|]. cbn [map fold_left]. rewrite RmaxRmult by lra. apply IH.
Qed.

Lemma section_scale : forall c k row i, 0 < c -> section k (map (Rmult c) row) i = section k row i.
Proof.
  intros c k row i Hc. unfold section, py_slice. rewrite skipn_map, firstn_map, map_length. cbv zeta.
  destruct (Nat.eqb _ _); [|reflexivity]. destruct (firstn _ _) as [|x sec]; [reflexivity|]. cbn [map row_max]. rewrite (fold_Rmax_scale c Hc). f_equal.
  change (c * x :: map (Rmult c) sec) with (map (Rmult c) (x :: sec)).
  set (mx := fold_left Rmax sec x). change ((if Req_EM_T (c * mx) 0 then 0 else c * x / (c * mx)) :: map (fun x => if Req_EM_T (c * mx) 0 then 0 else x / (c * mx)) (map (Rmult c) sec))
    with (map (fun x => if Req_EM_T (c * mx) 0 then 0 else x / (c * mx)) (map (Rmult c) (x :: sec))).
  change ((if Req_EM_T mx 0 then 0 else x / mx) :: map (fun x => if Req_EM_T mx 0 then 0 else x / mx) sec) with (map (fun x => if Req_EM_T mx 0 then 0 else x / mx) (x :: sec)).
  rewrite map_map. apply map_ext. intros y. destruct (Req_EM_T (c * mx) 0) as [Z|Z]; destruct (Req_EM_T mx 0) as [Z'|Z']; try reflexivity.
  - exfalso. apply Rmult_integral in Z. lra.
  - exfalso. apply Z. rewrite Z'. ring.
  - field. lra.
Qed.

Lemma C70_continuum_aux : forall parts fuel vmax velfac box atime section_size nbins flux flux',
  Forall2 (fun row row' => exists c, 0 < c /\ row' = map (Rmult c) row) flux flux' ->
  get_curvature parts fuel vmax velfac box atime section_size nbins flux' = get_curvature parts fuel vmax velfac box atime section_size nbins flux.
Proof.
  intros parts fuel vmax velfac box atime section_size nbins flux flux' H.
  assert (E : forall ss, flux_sections vmax velfac box ss nbins flux' = flux_sections vmax velfac box ss nbins flux).
  { intros ss. unfold flux_sections. destruct (Nat.eqb nbins 1); [reflexivity|]. cbv zeta. destruct (Rlt_dec ss _); [reflexivity|]. destruct (Rlt_dec box ss); [reflexivity|].
    f_equal. generalize (Z.to_nat (Zfloor (vmax / (box / ss * (vmax / (INR nbins - 1)))))). intros k.
    assert (G : forall i, map (fun row => section k row i) flux' = map (fun row => section k row i) flux).
    { intros i. induction H as [|row row' f f' (c & Hc & ->) H IH]; [reflexivity|]. cbn [map]. rewrite (section_scale c k row i Hc), IH. reflexivity. }
    apply flat_map_ext. exact G. }
  unfold get_curvature. cbv zeta. rewrite E. reflexivity.
Qed.

(** ** Cases *)
Definition wedge : list R := [0.2; 0.3; 0.4; 1; 0.4; 0.3; 0.2].

Ltac decide_range := match goal with |- context [Rlt_dec ?a ?b] => destruct (Rlt_dec a b); try lra end.

Lemma wedge_range : flux_range wedge = [0; 1; 2; 4; 5; 6]%nat.
Proof. unfold flux_range, wedge. cbn [length seq filter nth]. unfold inside. repeat decide_range. reflexivity. Qed.

Lemma unit_step : 6 / (INR 7 - 1) = 1.
Proof. replace (INR 7) with 7 by (cbn [INR]; lra). field. Qed.

Lemma wedge_curved : exists c, compute_curvature 6 7 [wedge] = Some [c] /\ 0 < c.
Proof.
  unfold compute_curvature. cbn [map all_some]. unfold section_curvature. rewrite wedge_range. cbv zeta. cbn [length Nat.ltb Nat.leb forallb andb].
  assert (X : map (velocity 6 7) [0; 1; 2; 4; 5; 6]%nat = [0; 1; 2; 4; 5; 6]).
  { unfold velocity. rewrite unit_step. cbn [map]. replace (INR 0) with 0 by reflexivity. repeat (f_equal; [cbn [INR]; lra|]). f_equal. cbn [INR]; lra. }
  rewrite X. clear X. unfold wedge. cbn [map nth]. set (fs := [0.2; 0.3; 0.4; 0.4; 0.3; 0.2]). set (xs := [0; 1; 2; 4; 5; 6]).
  set (p := gradient fs xs). set (pp := gradient p xs).
  assert (P0 : nth 0 p 0 = 0.1 /\ nth 1 p 0 = 0.1 /\ nth 2 p 0 = 1 / 15).
  { unfold p. rewrite !gradient_nth by (unfold fs; cbn [length]; lia). unfold gradient_at, fs, xs. cbn [length Nat.eqb Nat.sub nth plus]. repeat split; lra. }
  destruct P0 as (P0 & P1 & P2).
  assert (PP : nth 0 pp 0 = 1 / 60).
  { assert (Lp : length p = 6%nat) by (unfold p; apply gradient_length). unfold pp. rewrite gradient_nth by lia. unfold gradient_at. cbn [Nat.eqb].
    rewrite P0, P1, P2. unfold xs. cbn [nth]. lra. }
  assert (Lp : length p = 6%nat) by (unfold p; apply gradient_length).
  assert (Lpp : length pp = 6%nat) by (unfold pp; rewrite gradient_length; exact Lp).
  destruct p as [|p0 p']; [discriminate|]. destruct pp as [|pp0 pp']; [discriminate|]. cbn [nth] in P0, PP. subst p0 pp0.
  assert (Pos : 0 < mean (map (fun q => Rabs (snd q / Rpower (1 + fst q ^ 2) (3 / 2))) (combine (0.1 :: p') (1 / 60 :: pp')))).
  { unfold mean. apply Rdiv_lt_0_compat.
    - cbn [combine map fold_right fst snd].
      assert (N : 0 <= fold_right Rplus 0 (map (fun q => Rabs (snd q / Rpower (1 + fst q ^ 2) (3 / 2))) (combine p' pp'))).
      { induction (combine p' pp') as [|q l IH]; cbn [map fold_right]; [lra|]. assert (0 <= Rabs (snd q / Rpower (1 + fst q ^ 2) (3 / 2))) by apply Rabs_pos. lra. }
      assert (0 < Rabs (1 / 60 / Rpower (1 + 0.1 ^ 2) (3 / 2))).
      { apply Rabs_pos_lt. apply Rgt_not_eq. apply Rdiv_lt_0_compat; [lra|apply exp_pos]. }
      lra.
    - apply lt_0_INR. rewrite map_length, combine_length. cbn [length]. lia. }
  exists (mean (map (fun q => Rabs (snd q / Rpower (1 + fst q ^ 2) (3 / 2))) (combine (0.1 :: p') (1 / 60 :: pp')))). split; [|exact Pos].
  cbn [option_map filter]. destruct (Rlt_dec 0 _); [reflexivity|contradiction].
Qed.

Definition bump : list R := [0.2; 0.5; 0.2].

Lemma bump_range : middling 0 bump [(0%nat, 0.2); (1%nat, 0.5); (2%nat, 0.2)].
Proof. unfold bump. repeat (constructor; [lra|]). constructor. Qed.

Lemma bump_curved : exists c, compute_curvature 6 7 [bump] = Some [c].
Proof.
  eexists. apply (C70_parabola_aux 6 7 bump [(0%nat, 0.2); (1%nat, 0.5); (2%nat, 0.2)] 0.2 0.6 (-0.3)); [lra|cbn; lia|apply bump_range|cbn; lia|lra|].
  rewrite unit_step. repeat (constructor; [unfold parabola; cbn [fst snd INR]; lra|]). constructor.
Qed.

Lemma dark_flat : compute_curvature 6 7 [[0; 0; 0]] = Some [].
Proof. apply outside_curvature. repeat constructor; lra. Qed.

Lemma too_long : compute_curvature 2 3 [[0.2; 0.5; 0.2; 0.5]] = None.
Proof.
  unfold compute_curvature. cbn [map all_some]. unfold section_curvature.
  assert (F : flux_range [0.2; 0.5; 0.2; 0.5] = [0; 1; 2; 3]%nat).
  { unfold flux_range. cbn [length seq filter nth]. unfold inside. repeat decide_range. reflexivity. }
  rewrite F. reflexivity.
Qed.
