(** The total absorption of one particle, of many, with the tail cut off, and against the column density. *)
From Coq Require Import Reals ZArith Lra Lia Bool.
From Coquelicot Require Import Coquelicot.
From Coq Require Import List.
From Flocq Require Import Core.Raux.
From Verif Require Import AbsorptionModel AbsorptionSpec KernelProofs AbsorptionProofs TauProofs IoniseProofs.
From Verif Require Import StrengthSpec StrengthProofs StrengthProofs2 StrengthProofs3 StrengthProofs4.
Import ListNotations.
Local Open Scope R_scope.

Section Total.
Variable profile : R -> R -> R.
Hypothesis thermal_profile : forall u, profile u 0 = exp (- (u * u)).
Variable L : line.
Hypothesis no_damping : voigt_fac L = 0.
Hypothesis Hs : 0 <= sigma_a L.
Hypothesis Hb : 0 < bfac L.
Hypothesis Hv : 0 < velfac L.
Hypothesis Hbox : 0 < vbox L.

Lemma allowance_nonneg : forall bin b q, 0 < bin -> 0 < b -> 1 <= q -> 0 <= allowance bin b q.
Proof.
  intros bin b q H1 H2 H3. unfold allowance.
  assert (0 <= Rmin bin (b / 2) / b) by (apply Rdiv_le_0_compat; [apply Rmin_glb; lra | assumption]).
  assert (0 <= (Rmin bin (b / 2) / b) ^ 4) by (apply pow_le; assumption).
  assert (0 <= (1 + q) * exp (- (q * q))) by (apply Rmult_le_pos; [lra | left; apply exp_pos]). lra.
Qed.

Lemma pixel_sum : forall k (n : nat) dr2 dens vel temp smooth q, (0 < n)%nat ->
  0 <= dens -> 0 < temp -> 0 < smooth ->
  (match k with Voronoi => 0 < dr2 <= smooth | _ => dr2 < smooth * smooth end) -> 1 <= q ->
  let b := bfac L * sqrt temp in let bin := vbox L / INR n in
  q * b + velfac L * half_extent k dr2 smooth <= (INR (n / 2) - 1) * bin ->
  let c := Zfloor (vel / bin) in
  let v := pixel_tau profile L k n dr2 dens vel temp smooth in
  Rabs (bin * (rsum (map v (zrange_up c (n / 2))) + rsum (map v (zrange_down (c - 1) (n / 2))))
        - absorption L * dens * sampled k dr2 smooth)
  <= absorption L * dens * sampled k dr2 smooth * allowance bin b q.
Proof.
  intros k n dr2 dens vel temp smooth q Hn Hd Ht Hh T Hq b bin M c v.
  assert (Hb0 : 0 < b) by (apply Rmult_lt_0_compat; [assumption | apply sqrt_lt_R0; assumption]).
  assert (HN : 0 < INR n) by (apply lt_0_INR; assumption).
  assert (Hbin : 0 < bin) by (apply Rdiv_lt_0_compat; assumption).
  set (d := match k with Voronoi => velfac L * dr2 | _ => velfac L * dr2 * velfac L end).
  set (h := velfac L * smooth). assert (Hh0 : 0 < h) by (apply Rmult_lt_0_compat; assumption).
  destruct (chord k b dr2 smooth (velfac L) 0 0 Hv Hh T) as (E1 & E2). fold d h in E1, E2.
  destruct (outer_rule profile thermal_profile k b d h bin Hb0 Hbin) as (P & ka & hh & HP & Hka & Hhh & EO).
  set (A := sigma_a L / sqrt PI * (light_kms / b) * dens / velfac L).
  assert (S0 : 0 < sqrt PI) by (apply sqrt_lt_R0, PI_RGT_0).
  assert (EV : forall z, bin * v z = A * rsum (map (fun cv => fst cv * b * P ((IZR z * bin - vel - snd cv) / b)) (pieces k d h))).
  { intros z. rewrite <- EO. unfold v, pixel_tau. fold b bin d h. rewrite no_damping.
    replace (0 / b) with 0 by (unfold Rdiv; ring). unfold A, Rdiv. ring. }
  assert (HC : IZR c * bin <= vel < IZR c * bin + bin).
  { pose proof (Zfloor_lb (vel / bin)) as F1. pose proof (Zfloor_ub (vel / bin)) as F2. fold c in F1, F2.
    apply (Rmult_le_compat_r bin) in F1; [| lra]. apply (Rmult_lt_compat_r bin) in F2; [| lra].
    replace (vel / bin * bin) with vel in F1, F2 by (field; lra). lra. }
  set (H := (n / 2)%nat) in *. set (x0 := fun u => (IZR c * bin - vel - u) / b).
  set (tot := fun u => rsum (map (fun i => P (x0 u + INR i * (bin / b))) (seq 0 H)) +
                       rsum (map (fun i => P (x0 u - bin / b - INR i * (bin / b))) (seq 0 H))).
  assert (SUM : bin * (rsum (map v (zrange_up c H)) + rsum (map v (zrange_down (c - 1) H))) =
    A * rsum (map (fun cv => (fst cv * b) * tot (snd cv)) (pieces k d h))).
  { rewrite Rmult_plus_distr_l. rewrite <- !(rsum_map_scal Z bin v).
    unfold zrange_up, zrange_down. rewrite !map_map.
    rewrite (rsum_map_ext nat (fun x => bin * v (c + Z.of_nat x)%Z)
      (fun i => A * rsum (map (fun cv => fst cv * b * P (x0 (snd cv) + INR i * (bin / b))) (pieces k d h)))).
    2:{ intros i _. rewrite EV. f_equal. apply rsum_map_ext. intros (cc, u) _. cbn [fst snd]. f_equal. f_equal.
        unfold x0. rewrite plus_IZR, <- INR_IZR_INZ. field. lra. }
    rewrite (rsum_map_ext nat (fun x => bin * v (c - 1 - Z.of_nat x)%Z)
      (fun i => A * rsum (map (fun cv => fst cv * b * P (x0 (snd cv) - bin / b - INR i * (bin / b))) (pieces k d h)))).
    2:{ intros i _. rewrite EV. f_equal. apply rsum_map_ext. intros (cc, u) _. cbn [fst snd]. f_equal. f_equal.
        unfold x0. rewrite !minus_IZR, <- INR_IZR_INZ. field. lra. }
    rewrite !(rsum_map_scal nat A). rewrite <- Rmult_plus_distr_l. f_equal.
    rewrite (rsum_swap nat (R * R) (fun i cv => fst cv * b * P (x0 (snd cv) + INR i * (bin / b)))).
    rewrite (rsum_swap nat (R * R) (fun i cv => fst cv * b * P (x0 (snd cv) - bin / b - INR i * (bin / b)))).
    rewrite <- rsum_map_plus. apply rsum_map_ext. intros cv _. unfold tot.
    rewrite !(rsum_map_scal nat (fst cv * b)). ring. }
  assert (HD : k = Voronoi -> d <= h).
  { intros ->. unfold d, h. apply Rmult_le_compat_l; lra. }
  assert (HA : 0 <= A).
  { unfold A, Rdiv. unfold light_kms.
    assert (0 < / sqrt PI) by (apply Rinv_0_lt_compat; assumption).
    assert (0 < / b) by (apply Rinv_0_lt_compat; assumption).
    assert (0 < / velfac L) by (apply Rinv_0_lt_compat; assumption).
    assert (0 <= sigma_a L * / sqrt PI) by (apply Rmult_le_pos; lra).
    assert (0 < 299792.458 * / b) by (apply Rmult_lt_0_compat; lra).
    apply Rmult_le_pos; [| lra]. apply Rmult_le_pos; [| assumption]. apply Rmult_le_pos; lra. }
  assert (CL : Rabs (rsum (map (fun cv => (fst cv * b) * tot (snd cv)) (pieces k d h)) -
       rsum (map (fun cv => fst cv * b) (pieces k d h)) * sqrt PI) <=
     rsum (map (fun cv => fst cv * b) (pieces k d h)) * (sqrt PI * (hh ^ 4 / 18 + (1 + q) * ge q))).
  { apply rsum_close. intros (cc, u) Hi. cbn [fst snd].
    destruct (pieces_in k d h cc u Hh0 HD Hi) as (P1 & P2). rewrite E2 in P2.
    split; [apply Rmult_le_pos; lra |].
    assert (Hhh2 : hh <= 1 / 2).
    { apply Rle_trans with (1 := proj2 Hhh). apply (Rmult_le_reg_r b); [assumption |].
      replace (Rmin bin (b / 2) / b * b) with (Rmin bin (b / 2)) by (field; lra).
      pose proof (Rmin_r bin (b / 2)). lra. }
    apply (window_sum P (bin / b) ka hh (x0 u) H q HP Hka); [lra | assumption | |].
    - apply (Rmult_le_reg_r b); [assumption |]. unfold x0.
      replace (((IZR c * bin - vel - u) / b + INR H * (bin / b)) * b) with (IZR c * bin - vel - u + INR H * bin) by (field; lra).
      lra.
    - apply (Rmult_le_reg_r b); [assumption |]. unfold x0.
      replace (((IZR c * bin - vel - u) / b - INR H * (bin / b)) * b) with (IZR c * bin - vel - u - INR H * bin) by (field; lra).
      lra. }
  assert (EB : rsum (map (fun cv => fst cv * b) (pieces k d h)) = b * (velfac L * sampled k dr2 smooth)).
  { rewrite <- E1, <- (pieces_total k b d h 0 0), <- (rsum_map_scal (R * R) b).
    apply rsum_map_ext. intros; apply Rmult_comm. }
  rewrite EB in CL. rewrite SUM.
  assert (EX : A * (b * (velfac L * sampled k dr2 smooth) * sqrt PI) = absorption L * dens * sampled k dr2 smooth).
  { unfold A, absorption, light_kms. set (l := 299792.458). clearbody l. field. lra. }
  rewrite <- EX.
  match goal with |- Rabs (A * ?a - A * ?b) <= _ => replace (A * a - A * b) with (A * (a - b)) by ring end.
  rewrite Rabs_mult, (Rabs_right A) by lra. rewrite (Rmult_assoc A).
  apply Rmult_le_compat_l; [assumption |]. apply Rle_trans with (1 := CL).
  rewrite <- (Rmult_assoc (b * (velfac L * sampled k dr2 smooth))). apply Rmult_le_compat_l.
  - apply Rmult_le_pos; [| lra]. rewrite <- EB. apply rsum_nonneg. intros x Hx. apply in_map_iff in Hx.
    destruct Hx as ((cc, u) & <- & Hi). cbn [fst]. apply Rmult_le_pos; [| lra].
    apply (pieces_in k d h cc u Hh0 HD Hi).
  - unfold allowance. fold (ge q). apply Rplus_le_compat_r. apply Rmult_le_compat_r; [lra |].
    apply pow_incr. assumption.
Qed.

Lemma sampled_nonneg : forall k dr2 smooth, 0 < smooth ->
  (match k with Voronoi => 0 < dr2 <= smooth | _ => dr2 < smooth * smooth end) -> 0 <= sampled k dr2 smooth.
Proof.
  intros k dr2 smooth Hh T. destruct (chord k 1 dr2 smooth 1 0 0 ltac:(lra) Hh T) as (E & _).
  rewrite <- (Rmult_1_l (sampled k dr2 smooth)), <- E.
  set (d := match k with Voronoi => 1 * dr2 | _ => 1 * dr2 * 1 end) in *.
  rewrite <- (pieces_total k 1 d (1 * smooth) 0 0).
  apply rsum_nonneg. intros x Hx. apply in_map_iff in Hx.
  destruct Hx as ((cc, u) & <- & Hi). cbn [fst].
  apply (pieces_in k d (1 * smooth) cc u ltac:(lra)) in Hi; [apply Hi |]. intros ->. unfold d. lra.
Qed.

Lemma pixel_nonneg : forall k (n : nat) dr2 dens vel temp smooth z, (0 < n)%nat ->
  0 <= dens -> 0 < temp -> 0 < smooth ->
  (match k with Voronoi => 0 < dr2 <= smooth | _ => dr2 < smooth * smooth end) ->
  0 <= pixel_tau profile L k n dr2 dens vel temp smooth z.
Proof.
  intros k n dr2 dens vel temp smooth z Hn Hd Ht Hh T.
  set (b := bfac L * sqrt temp). set (bin := vbox L / INR n).
  assert (Hb0 : 0 < b) by (apply Rmult_lt_0_compat; [assumption | apply sqrt_lt_R0; assumption]).
  assert (HN : 0 < INR n) by (apply lt_0_INR; assumption).
  assert (Hbin : 0 < bin) by (apply Rdiv_lt_0_compat; assumption).
  unfold pixel_tau. fold b bin. rewrite no_damping. replace (0 / b) with 0 by (unfold Rdiv; ring).
  set (d := match k with Voronoi => velfac L * dr2 | _ => velfac L * dr2 * velfac L end).
  set (h := velfac L * smooth). assert (Hh0 : 0 < h) by (apply Rmult_lt_0_compat; assumption).
  assert (O : 0 <= tau_kern_outer profile k b d h 0 (IZR z * bin - vel) (IZR z * bin - vel + bin)).
  { apply (outer_nonneg profile k b d h 0); try assumption.
    - intros ->. unfold d, h. apply Rmult_le_compat_l; lra.
    - split; intros; rewrite !thermal_profile; [left; apply exp_pos |]. apply exp_le.
      assert (u * u <= v * v); [| lra]. rewrite <- (Rabs_pos_eq (u * u)), <- (Rabs_pos_eq (v * v)) by nra.
      rewrite !Rabs_mult. pose proof (Rabs_pos u). nra. }
  assert (0 < / sqrt PI) by (apply Rinv_0_lt_compat, sqrt_lt_R0, PI_RGT_0).
  assert (0 < / b) by (apply Rinv_0_lt_compat; assumption).
  assert (0 < / velfac L) by (apply Rinv_0_lt_compat; assumption).
  assert (0 <= sigma_a L * / sqrt PI) by (apply Rmult_le_pos; lra).
  unfold Rdiv, light_kms. assert (0 < 299792.458 * / b) by (apply Rmult_lt_0_compat; lra).
  apply Rmult_le_pos; [| lra]. apply Rmult_le_pos; [| assumption]. apply Rmult_le_pos; [| assumption].
  apply Rmult_le_pos; lra.
Qed.

Lemma total_one : forall k (n : nat) q p tau tau', (0 < n)%nat -> tautail L = 0 -> 1 <= q -> length tau = n ->
  contained L k n q p ->
  add_tau_particle profile L k (Z.of_nat n) (p_dr2 p) (p_dens p) (p_pos p) (p_vel p) (p_temp p) (p_smooth p) tau = Some tau' ->
  let bin := vbox L / INR n in let N := column k p in
  length tau' = n /\
  Rabs (bin * (rsum tau' - rsum tau) - absorption L * N)
    <= absorption L * N * allowance bin (bfac L * sqrt (p_temp p)) q.
Proof.
  intros k n q p tau tau' Hn Htl Hq Hl (C1 & C2 & C3 & C4 & C5 & C6) E bin N.
  assert (T : match k with Voronoi => 0 < p_dr2 p <= p_smooth p | _ => p_dr2 p < p_smooth p * p_smooth p end).
  { destruct k; try exact C4. apply C5. reflexivity. }
  split.
  { destruct (C10_pixels_aux profile L k n (p_dr2 p) (p_dens p) (p_pos p) (p_vel p) (p_temp p) (p_smooth p) tau Hn Hl C4)
      as (t & Et & Lt & _). rewrite E in Et. injection Et as <-. exact Lt. }
  rewrite tau_unfold in E by assumption. apply deposit_total in E; [| assumption | assumption].
  rewrite Htl in E. unfold visited in E. rewrite !stop_all in E by (intros; apply pixel_nonneg; assumption).
  rewrite map_app, rsum_app in E. rewrite E.
  replace (Z.to_nat (Z.quot (Z.of_nat n) 2)) with (n / 2)%nat.
  2:{ rewrite Z.quot_div_nonneg by lia. change 2%Z with (Z.of_nat 2). rewrite <- Nat2Z.inj_div, Nat2Z.id. reflexivity. }
  pose proof (pixel_sum k n (p_dr2 p) (p_dens p)
    (particle_vel L k (p_dr2 p) (p_pos p) (p_vel p) (p_smooth p)) (p_temp p) (p_smooth p) q Hn C1 C2 C3 T Hq C6) as H.
  cbv zeta in H. fold bin in H. unfold N, column. rewrite <- !Rmult_assoc.
  match goal with |- Rabs (bin * (rsum tau + ?a - rsum tau) - _) <= _ =>
    replace (rsum tau + a - rsum tau) with a by ring end.
  exact H.
Qed.

Definition step (k : kern) (n : nat) (p : parcel) (tau : list R) : option (list R) :=
  add_tau_particle profile L k (Z.of_nat n) (p_dr2 p) (p_dens p) (p_pos p) (p_vel p) (p_temp p) (p_smooth p) tau.

Lemma column_nonneg : forall k n q p, contained L k n q p -> 0 <= column k p.
Proof.
  intros k n q p (C1 & C2 & C3 & C4 & C5 & C6). apply Rmult_le_pos; [assumption |].
  apply sampled_nonneg; [assumption |]. destruct k; try exact C4. apply C5. reflexivity.
Qed.

Lemma absorption_nonneg : 0 <= absorption L.
Proof. unfold absorption. apply Rmult_le_pos; lra. Qed.

Lemma total_many : forall k (n : nat) q e ps tau tau', (0 < n)%nat -> tautail L = 0 -> 1 <= q -> length tau = n ->
  (forall p, In p ps -> contained L k n q p /\ allowance (vbox L / INR n) (bfac L * sqrt (p_temp p)) q <= e) ->
  in_turn (step k n) ps tau tau' ->
  let bin := vbox L / INR n in let N := rsum (map (column k) ps) in
  Rabs (bin * (rsum tau' - rsum tau) - absorption L * N) <= absorption L * N * e.
Proof.
  intros k n q e ps. induction ps as [|p ps IH]; intros tau tau' Hn Htl Hq Hl HP HT bin N.
  - simpl in HT. subst tau'. unfold N, rsum. simpl.
    replace (bin * (fold_right Rplus 0 tau - fold_right Rplus 0 tau) - absorption L * 0) with 0 by ring.
    rewrite Rabs_R0. lra.
  - destruct HT as (t & E & HT).
    destruct (HP p ltac:(left; reflexivity)) as (Cp & Ap).
    destruct (total_one k n q p tau t Hn Htl Hq Hl Cp E) as (Lt & T1). cbv zeta in T1.
    pose proof (IH t tau' Hn Htl Hq Lt ltac:(intros x Hx; apply HP; right; assumption) HT) as T2. cbv zeta in T2.
    fold bin in T1, T2. unfold N. cbn [map]. unfold rsum at 3 4. cbn [fold_right].
    fold (rsum (map (column k) ps)).
    assert (T1' : Rabs (bin * (rsum t - rsum tau) - absorption L * column k p) <= absorption L * column k p * e).
    { apply Rle_trans with (1 := T1). apply Rmult_le_compat_l; [| exact Ap].
      apply Rmult_le_pos; [apply absorption_nonneg | apply (column_nonneg k n q p Cp)]. }
    pose proof (rabs_add _ _ _ _ T1' T2) as T.
    match goal with |- Rabs ?a <= ?b => match type of T with Rabs ?a' <= ?b' =>
      replace a with a' by ring; replace b with b' by ring end end. exact T.
Qed.

(** Two parcels with the same column. *)
Lemma same_column : forall k (n : nat) q p1 p2 t1 t2, (0 < n)%nat -> tautail L = 0 -> 1 <= q ->
  contained L k n q p1 -> contained L k n q p2 ->
  p_dr2 p1 = p_dr2 p2 -> p_smooth p1 = p_smooth p2 -> p_dens p1 = p_dens p2 ->
  step k n p1 (repeat 0 n) = Some t1 -> step k n p2 (repeat 0 n) = Some t2 ->
  let bin := vbox L / INR n in
  Rabs (bin * rsum t1 - bin * rsum t2) <= absorption L * column k p1 *
    (allowance bin (bfac L * sqrt (p_temp p1)) q + allowance bin (bfac L * sqrt (p_temp p2)) q).
Proof.
  intros k n q p1 p2 t1 t2 Hn Htl Hq C1 C2 E1 E2 E3 S1 S2 bin.
  destruct (total_one k n q p1 _ t1 Hn Htl Hq (repeat_length 0 n) C1 S1) as (_ & T1).
  destruct (total_one k n q p2 _ t2 Hn Htl Hq (repeat_length 0 n) C2 S2) as (_ & T2).
  cbv zeta in T1, T2. fold bin in T1, T2.
  assert (EC : column k p2 = column k p1) by (unfold column; rewrite E1, E2, E3; reflexivity). rewrite EC in T2.
  rewrite (rsum_zero (repeat 0 n)) in T1, T2 by (intros x Hx; apply repeat_spec in Hx; assumption).
  rewrite Rminus_0_r in T1, T2. rewrite <- Rabs_Ropp in T2.
  pose proof (rabs_add _ _ _ _ T1 T2) as T.
  match goal with |- Rabs ?a <= ?b => match type of T with Rabs ?a' <= ?b' =>
    replace a with a' by ring; replace b with b' by ring end end. exact T.
Qed.

(** Against the column density array. *)
Lemma against_column : forall k (n : nat) q p tau tau' colden, k = TopHat \/ k = Voronoi ->
  (0 < n)%nat -> tautail L = 0 -> 1 <= q -> length tau = n -> length colden = n -> contained L k n q p ->
  step k n p tau = Some tau' ->
  exists colden', add_colden_particle k (vbox L) (velfac L) (Z.of_nat n) (p_dr2 p) (p_dens p) (p_pos p) (p_smooth p) colden
      = Some colden' /\
    let bin := vbox L / INR n in let N := rsum colden' - rsum colden in
    Rabs (bin * (rsum tau' - rsum tau) - 7 / 8 * (absorption L * N))
      <= 7 / 8 * (absorption L * N) * allowance bin (bfac L * sqrt (p_temp p)) q.
Proof.
  intros k n q p tau tau' colden Hk Hn Htl Hq Hl Hl2 C E.
  destruct (total_one k n q p tau tau' Hn Htl Hq Hl C E) as (_ & T). cbv zeta in T.
  destruct C as (C1 & C2 & C3 & C4 & C5 & C6).
  assert (G : exists colden', add_colden_particle k (vbox L) (velfac L) (Z.of_nat n) (p_dr2 p) (p_dens p) (p_pos p)
      (p_smooth p) colden = Some colden' /\ column k p = 7 / 8 * (rsum colden' - rsum colden)).
  { destruct Hk; subst k; unfold column, sampled, half_extent; simpl in C4.
    - destruct (C07_tophat_aux (vbox L) (velfac L) n (p_dr2 p) (p_dens p) (p_pos p) (p_smooth p) colden Hbox Hv Hn Hl2 C4)
        as (c & Ec & Sc). exists c. split; [exact Ec |]. rewrite Sc. ring.
    - destruct (C07_voronoi_aux (vbox L) (velfac L) n (p_dr2 p) (p_smooth p) (p_dens p) (p_pos p) colden Hbox Hv Hn Hl2)
        as (c & Ec & Sc).
      + apply C5. reflexivity.
      + apply C4.
      + exists c. split; [exact Ec |]. rewrite Sc. field. }
  destruct G as (c & Ec & G). exists c. split; [exact Ec |]. cbv zeta. rewrite G in T.
  match goal with |- Rabs ?a <= ?b => match type of T with Rabs ?a' <= ?b' =>
    replace a with a' by ring; replace b with b' by ring end end. exact T.
Qed.

End Total.

Lemma rsum_between : forall l1 l2 t, 0 <= t -> length l1 = length l2 ->
  (forall j, nth j l2 0 - t <= nth j l1 0 <= nth j l2 0) ->
  rsum l2 - INR (length l2) * t <= rsum l1 <= rsum l2.
Proof.
  intros l1 l2 t Ht HL H. rewrite (rsum_nth l1 (length l2)), (rsum_nth l2 (length l2)) by auto.
  generalize (length l2) as n. generalize 0%nat as a. intros a n. revert a.
  induction n as [|n IH]; intros a; [unfold rsum; simpl; lra |].
  cbn [seq map]. unfold rsum in *. cbn [fold_right]. specialize (IH (S a)). specialize (H a). rewrite S_INR. lra.
Qed.

(** With the tail cut off. *)
Lemma total_cut : forall profile L k (n : nat) q p tau tau', (forall u, profile u 0 = exp (- (u * u))) ->
  voigt_fac L = 0 -> 0 <= sigma_a L -> 0 < bfac L -> 0 < velfac L -> 0 < vbox L -> 0 < tautail L ->
  (0 < n)%nat -> 1 <= q -> length tau = n -> contained L k n q p ->
  let bin := vbox L / INR n in
  let vel := particle_vel L k (p_dr2 p) (p_pos p) (p_vel p) (p_smooth p) in
  let c := Zfloor (vel / bin) in let edge := velfac L * half_extent k (p_dr2 p) (p_smooth p) in
  (forall z, in_window (Z.of_nat n) c z ->
     - edge < IZR (z + 1) * bin - vel -> IZR z * bin - vel < edge ->
     tautail L <= pixel_tau profile L k n (p_dr2 p) (p_dens p) vel (p_temp p) (p_smooth p) z) ->
  step profile L k n p tau = Some tau' ->
  let e := allowance bin (bfac L * sqrt (p_temp p)) q in let A := absorption L * column k p in
  A * (1 - e) - vbox L * tautail L <= bin * (rsum tau' - rsum tau) <= A * (1 + e).
Proof.
  intros profile L k n q p tau tau' Hpr Hvf Hs Hb Hv Hbox Htl Hn Hq Hl C bin vel c edge G E e A.
  assert (C' := C). destruct C' as (C1 & C2 & C3 & C4 & C5 & C6).
  set (L0 := with_tail L 0).
  assert (Cx : contained L0 k n q p) by exact C.
  destruct (C10_pixels_aux profile L0 k n (p_dr2 p) (p_dens p) (p_pos p) (p_vel p) (p_temp p) (p_smooth p) tau Hn Hl)
    as (t & Et & Lt & _); [exact C4 |].
  destruct (C10_pixels_aux profile L k n (p_dr2 p) (p_dens p) (p_pos p) (p_vel p) (p_temp p) (p_smooth p) tau Hn Hl C4)
    as (t' & Et' & Lt' & _). unfold step in E. rewrite E in Et'. injection Et' as <-.
  destruct (total_one profile Hpr L0 Hvf Hs Hb Hv Hbox k n q p tau t Hn eq_refl Hq Hl Cx Et) as (_ & T).
  cbv zeta in T. change (vbox L0 / INR n) with bin in T. change (absorption L0) with (absorption L) in T.
  change (bfac L0) with (bfac L) in T. fold e A in T.
  assert (B : forall j, nth j t 0 - tautail L < nth j tau' 0 <= nth j t 0).
  { apply (C11_tail_aux profile L k n (p_dr2 p) (p_dens p) (p_pos p) (p_vel p) (p_temp p) (p_smooth p) tau); try assumption.
    - intros ->. apply C5. reflexivity.
    - cbv zeta. rewrite Hvf. replace (0 / (bfac L * sqrt (p_temp p))) with 0 by (unfold Rdiv; ring).
      split; intros; rewrite !Hpr; [left; apply exp_pos |]. apply exp_le.
      assert (u * u <= v * v); [| lra]. rewrite <- (Rabs_pos_eq (u * u)), <- (Rabs_pos_eq (v * v)) by nra.
      rewrite !Rabs_mult. pose proof (Rabs_pos u). nra. }
  pose proof (rsum_between tau' t (tautail L) ltac:(lra) ltac:(congruence)
    ltac:(intros j; specialize (B j); lra)) as R. rewrite Lt in R.
  assert (HN : 0 < INR n) by (apply lt_0_INR; assumption).
  assert (Hbin : 0 < bin) by (apply Rdiv_lt_0_compat; assumption).
  assert (EN : bin * (INR n * tautail L) = vbox L * tautail L) by (unfold bin; field; lra).
  apply Rabs_le_between in T. destruct R as (R1 & R2).
  apply (Rmult_le_compat_l bin) in R1; [| lra]. apply (Rmult_le_compat_l bin) in R2; [| lra]. lra.
Qed.

Lemma allowance_small : forall bin b q, 0 < bin -> 0 < b -> 8 <= q ->
  allowance bin b q <= 1 / 288 + / 10 ^ 20 /\ allowance bin b q <= (bin / b) ^ 4 / 18 + / 10 ^ 20.
Proof.
  intros bin b q Hbin Hb Hq. unfold allowance.
  assert (T : (1 + q) * exp (- (q * q)) <= / 10 ^ 20).
  { assert (E8 : 9 <= exp 8) by (pose proof (exp_ineq1_le 8); lra).
    assert (Ex : 1 + q <= exp q) by apply exp_ineq1_le.
    apply Rle_trans with (exp q * exp (- (q * q))).
    - apply Rmult_le_compat_r; [left; apply exp_pos | assumption].
    - rewrite <- exp_plus. apply Rle_trans with (exp (- (56))).
      + apply IoniseProofs.exp_le. nra.
      + rewrite exp_Ropp. apply Rinv_le_contravar; [apply pow_lt; lra |].
        replace 56 with (14 + (14 + (14 + 14))) by lra. rewrite !exp_plus.
        assert (E1 : exp 14 = exp 7 * exp 7) by (rewrite <- exp_plus; f_equal; lra).
        assert (E7 : exp 7 = exp 1 * exp 1 * exp 1 * exp 1 * exp 1 * exp 1 * exp 1)
          by (rewrite <- !exp_plus; f_equal; lra).
        assert (X1 : 2.5 <= exp 1).
        { assert (Hh : exp 1 = exp (1/4) * exp (1/4) * exp (1/4) * exp (1/4)) by (rewrite <- !exp_plus; f_equal; lra).
          assert (Hs : exp (1/4) = exp (1/16) * exp (1/16) * exp (1/16) * exp (1/16)) by (rewrite <- !exp_plus; f_equal; lra).
          pose proof (exp_ineq1_le (1/16)) as HH.
          assert (HQ : 1.27 <= exp (1/4)).
          { rewrite Hs. set (y := exp (1/16)) in *. clearbody y. assert (1.128 <= y * y) by nra.
            replace (y * y * y * y) with ((y * y) * (y * y)) by ring. nra. }
          rewrite Hh. set (y := exp (1/4)) in *. clearbody y. assert (1.61 <= y * y) by nra.
          replace (y * y * y * y) with ((y * y) * (y * y)) by ring. nra. }
        assert (X7 : 600 <= exp 7).
        { rewrite E7. set (y := exp 1) in *. clearbody y. assert (6.25 <= y * y) by nra.
          replace (y * y * y * y * y * y * y) with ((y * y) * (y * y) * (y * y) * y) by ring.
          set (z := y * y) in *. clearbody z. assert (39 <= z * z) by nra. assert (243.75 <= z * z * z) by nra. nra. }
        assert (X14 : 360000 <= exp 14) by (rewrite E1; nra).
        set (y := exp 14) in *. clearbody y. assert (120000000000 <= y * y) by nra.
        replace (y * (y * (y * y))) with ((y * y) * (y * y)) by ring.
        apply Rle_trans with (120000000000 * 120000000000); [lra | nra]. }
  assert (M0 : 0 <= Rmin bin (b / 2) / b) by (apply Rdiv_le_0_compat; [apply Rmin_glb; lra | assumption]).
  split.
  - assert (Rmin bin (b / 2) / b <= 1 / 2).
    { apply (Rmult_le_reg_r b); [assumption |].
      replace (Rmin bin (b / 2) / b * b) with (Rmin bin (b / 2)) by (field; lra).
      pose proof (Rmin_r bin (b / 2)). lra. }
    assert ((Rmin bin (b / 2) / b) ^ 4 <= (1 / 2) ^ 4) by (apply pow_incr; lra). lra.
  - assert (Rmin bin (b / 2) / b <= bin / b).
    { apply Rmult_le_compat_r; [left; apply Rinv_0_lt_compat; assumption | apply Rmin_l]. }
    assert ((Rmin bin (b / 2) / b) ^ 4 <= (bin / b) ^ 4) by (apply pow_incr; lra). lra.
Qed.
