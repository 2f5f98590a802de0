(** The total absorption of one particle and of many. *)
From Coq Require Import Reals ZArith Lra Lia Bool.
From Coquelicot Require Import Coquelicot.
From Coq Require Import List.
From Flocq Require Import Core.Raux.
From Verif Require Import AbsorptionModel AbsorptionSpec KernelProofs AbsorptionProofs TauProofs IoniseProofs.
From Verif Require Import StrengthSpec StrengthProofs StrengthProofs2 StrengthProofs3.
Import ListNotations.
Local Open Scope R_scope.

Lemma trapezium_ext : forall f g a b n, (forall x, f x = g x) -> trapezium f a b n = trapezium g a b n.
Proof.
  intros f g a b n H. unfold trapezium. rewrite !H. f_equal. f_equal. f_equal. apply rsum_map_ext. intros; apply H.
Qed.

Lemma trapezium_zero : forall a b n, trapezium (fun _ => 0) a b n = 0.
Proof.
  intros a b n. unfold trapezium. rewrite rsum_zero; [unfold Rdiv; ring |].
  intros x Hx. apply in_map_iff in Hx. destruct Hx as (i & <- & _). reflexivity.
Qed.

Lemma trapezium_lin : forall c f g a b n,
  trapezium (fun x => c * f x + g x) a b n = c * trapezium f a b n + trapezium g a b n.
Proof.
  intros c f g a b n. unfold trapezium. rewrite rsum_map_plus.
  rewrite (rsum_map_scal nat c (fun i => f (a + INR i * ((b - a) / INR n)))). unfold Rdiv. ring.
Qed.

Lemma trapezium_scale : forall (f : R -> R) s v a b n, s <> 0 ->
  trapezium (fun x => f ((x - v) / s)) a b n = s * trapezium f ((a - v) / s) ((b - v) / s) n.
Proof.
  intros f s v a b n Hs. unfold trapezium.
  assert (E : (b - v) / s - (a - v) / s = (b - a) / s) by (field; assumption). rewrite E.
  rewrite (rsum_map_ext nat (fun i => f ((a + INR i * ((b - a) / INR n) - v) / s))
             (fun i => f ((a - v) / s + INR i * ((b - a) / s / INR n)))).
  - unfold Rdiv. replace (s * ((b - a) * / s * / INR n * (f ((a - v) * / s) * / 2 +
      rsum (map (fun i : nat => f ((a - v) * / s + INR i * ((b - a) * / s * / INR n))) (seq 1 (n - 1))) + f ((b - v) * / s) * / 2)))
      with (s * / s * ((b - a) * / INR n * (f ((a - v) * / s) * / 2 +
      rsum (map (fun i : nat => f ((a - v) * / s + INR i * ((b - a) * / s * / INR n))) (seq 1 (n - 1))) + f ((b - v) * / s) * / 2))) by ring.
    rewrite Rinv_r by assumption. ring.
  - intros i _. f_equal. unfold Rdiv. ring.
Qed.

(** A combination of thermal profiles of width b. *)
Definition comb (b : R) (cs : list (R * R)) (x : R) : R :=
  rsum (map (fun cv => fst cv * ge ((x - snd cv) / b)) cs).

Lemma trapezium_comb : forall b cs lo w n, b <> 0 ->
  trapezium (comb b cs) lo (lo + w) n =
  rsum (map (fun cv => fst cv * b * trapezium ge ((lo - snd cv) / b) ((lo - snd cv) / b + w / b) n) cs).
Proof.
  intros b cs lo w n Hb. induction cs as [|(c, v) cs IH].
  - unfold comb, rsum. simpl. apply trapezium_zero.
  - cbn [map fst snd]. unfold rsum at 1. cbn [fold_right].
    fold (rsum (map (fun cv => fst cv * b * trapezium ge ((lo - snd cv) / b) ((lo - snd cv) / b + w / b) n) cs)).
    rewrite <- IH. rewrite (trapezium_ext _ (fun x => c * ge ((x - v) / b) + comb b cs x)) by reflexivity.
    rewrite (trapezium_lin c (fun x => ge ((x - v) / b)) (comb b cs)), (trapezium_scale ge) by assumption.
    replace ((lo - v) / b + w / b) with ((lo + w - v) / b) by (field; assumption). ring.
Qed.

Section Outer.
Variable profile : R -> R -> R.
Hypothesis thermal_profile : forall u, profile u 0 = exp (- (u * u)).

Definition pieces (k : kern) (d h : R) : list (R * R) :=
  map (fun i => let dv := 2 * m_vhigh k d h / 8 in let v := INR i * dv - m_vhigh k d h in
                (dv * tau_weight k (sqrt (d + v * v) / h), v)) (seq 1 7).

Lemma inner_comb : forall k b d h v, tau_kern_inner profile k b d h 0 v = comb b (pieces k d h) v.
Proof.
  intros k b d h v. rewrite inner_sum. unfold comb, pieces. rewrite map_map.
  rewrite <- (rsum_map_scal nat (2 * m_vhigh k d h / 8)). apply rsum_map_ext. intros i _. cbv zeta. cbn [fst snd].
  rewrite thermal_profile. fold (ge ((INR i * (2 * m_vhigh k d h / 8) - m_vhigh k d h - v) / b)).
  replace ((INR i * (2 * m_vhigh k d h / 8) - m_vhigh k d h - v) / b)
    with (- ((v - (INR i * (2 * m_vhigh k d h / 8) - m_vhigh k d h)) / b)) by (unfold Rdiv; ring).
  rewrite ge_even. ring.
Qed.

Lemma pieces_total : forall k b d h a v, rsum (map fst (pieces k d h)) = tau_kern_inner (fun _ _ => 1) k b d h a v.
Proof.
  intros k b d h a v. rewrite inner_sum. unfold pieces. rewrite map_map.
  rewrite <- (rsum_map_scal nat (2 * m_vhigh k d h / 8)). apply rsum_map_ext. intros i _. cbv zeta. cbn [fst]. ring.
Qed.

Lemma pieces_in : forall k d h c v, 0 < h -> (k = Voronoi -> d <= h) -> In (c, v) (pieces k d h) ->
  0 <= c /\ - m_vhigh k d h <= v <= m_vhigh k d h.
Proof.
  intros k d h c v Hh Hk H. unfold pieces in H. apply in_map_iff in H. destruct H as (i & E & Hi).
  injection E as <- <-. apply in_seq in Hi. pose proof (vhigh_nonneg k d h Hk) as V. split.
  - apply Rmult_le_pos; [lra |]. apply weight_nonneg. apply Rdiv_le_0_compat; [apply sqrt_pos | assumption].
  - assert (B1 : 0 <= INR i) by apply pos_INR.
    assert (B2 : INR i <= 8) by (replace 8 with (INR 8) by (simpl; lra); apply le_INR; lia).
    split; nra.
Qed.

(** One rule for all pixels. *)
Lemma outer_rule : forall k b d h w, 0 < b -> 0 < w ->
  exists P ka hh, est P (w / b) ka (hh ^ 4 / 384) /\ Rabs ka <= hh ^ 2 / 12 /\ 0 <= hh <= Rmin w (b / 2) / b /\
    forall lo, w * tau_kern_outer profile k b d h 0 lo (lo + w) =
      rsum (map (fun cv => fst cv * b * P ((lo - snd cv) / b)) (pieces k d h)).
Proof.
  intros k b d h w Hb Hw. destruct (Rlt_dec w (b / 2)) as [Hs | Hs].
  - exists (fun x => w / b * ge (x + w / b / 2)), (- ((w / b) ^ 2 / 24)), (w / b).
    assert (Hp : 0 < w / b) by (apply Rdiv_lt_0_compat; assumption).
    split; [apply est_narrow; lra |]. split; [| split].
    + rewrite Rabs_Ropp, Rabs_right; nra.
    + rewrite Rmin_left by lra. lra.
    + intros lo. rewrite (C13_narrow_bin_aux profile k b d h 0 lo (lo + w)) by lra. rewrite inner_comb. unfold comb.
      rewrite <- (rsum_map_scal (R * R) w). apply rsum_map_ext. intros (c, v) _. cbn [fst snd].
      replace (((lo + (lo + w)) / 2 - v) / b) with ((lo - v) / b + w / b / 2) by (field; lra). field. lra.
  - set (mz := Zceil (w / (b / 2) / 2)).
    assert (U : w / (b / 2) / 2 <= IZR mz) by apply Zceil_ub.
    assert (Hm : (1 <= mz)%Z).
    { assert (0 < mz)%Z; [|lia]. apply lt_IZR. eapply Rlt_le_trans; [|exact U].
      repeat apply Rdiv_lt_0_compat; lra. }
    set (m := (2 * Z.to_nat mz)%nat).
    assert (E2 : INR m = 2 * IZR mz).
    { unfold m. rewrite mult_INR. rewrite (INR_IZR_INZ (Z.to_nat mz)), Z2Nat.id by lia. simpl. ring. }
    assert (Hm1 : 1 <= IZR mz) by (apply IZR_le; assumption).
    assert (Hwm : w / INR m <= b / 2).
    { rewrite E2. apply (Rmult_le_reg_r (2 * IZR mz)); [lra|].
      replace (w / (2 * IZR mz) * (2 * IZR mz)) with w by (field; lra).
      apply (Rmult_le_compat_r b) in U; [|lra].
      replace (w / (b / 2) / 2 * b) with w in U by (field; lra). lra. }
    exists (fun x => trapezium ge x (x + w / b) m), ((w / b / INR m) ^ 2 / 12), (w / b / INR m).
    assert (Hp : 0 < w / b / INR m) by (apply Rdiv_lt_0_compat; [apply Rdiv_lt_0_compat; assumption | lra]).
    split; [apply est_wide; [left; apply Rdiv_lt_0_compat; assumption | unfold m; lia] |]. split; [| split].
    + rewrite Rabs_right; nra.
    + rewrite Rmin_right by lra. split; [lra |].
      replace (w / b / INR m) with (w / INR m / b) by (field; lra).
      apply Rmult_le_compat_r; [left; apply Rinv_0_lt_compat; assumption | assumption].
    + intros lo. rewrite <- trapezium_comb by lra.
      unfold tau_kern_outer. replace (lo + w - lo) with w by ring. destruct (Rlt_dec w (b / 2)); [lra|]. fold mz.
      rewrite plus_IZR, mult_IZR. replace (2 * IZR mz + 1 - 1) with (2 * IZR mz) by ring.
      rewrite (rsum_fold nat (fun i => tau_kern_inner profile k b d h 0 (INR i * (w / (2 * IZR mz)) + lo))).
      unfold trapezium. replace (lo + w - lo) with w by ring. rewrite E2.
      replace (m - 1)%nat with (Z.to_nat (2 * mz + 1 - 2)) by (unfold m; lia).
      rewrite (rsum_map_ext nat (fun i => tau_kern_inner profile k b d h 0 (INR i * (w / (2 * IZR mz)) + lo))
          (fun i => comb b (pieces k d h) (lo + INR i * (w / (2 * IZR mz))))).
      * rewrite !inner_comb. field. lra.
      * intros i _. rewrite inner_comb. f_equal. ring.
Qed.

Lemma rsum_swap : forall (A B : Type) (f : A -> B -> R) (la : list A) (lb : list B),
  rsum (map (fun a => rsum (map (fun b => f a b) lb)) la) = rsum (map (fun b => rsum (map (fun a => f a b) la)) lb).
Proof.
  intros A B f la lb. induction la as [|a la IH].
  - cbn [map]. symmetry. unfold rsum at 1. simpl. apply rsum_zero. intros x Hx. apply in_map_iff in Hx.
    destruct Hx as (? & <- & _). reflexivity.
  - cbn [map]. unfold rsum at 1. cbn [fold_right].
    fold (rsum (map (fun a => rsum (map (fun b => f a b) lb)) la)). rewrite IH, <- rsum_map_plus.
    apply rsum_map_ext. intros b _. reflexivity.
Qed.

Lemma rsum_close : forall (A : Type) (c t : A -> R) l s e, (forall x, In x l -> 0 <= c x /\ Rabs (t x - s) <= e) ->
  Rabs (rsum (map (fun x => c x * t x) l) - rsum (map c l) * s) <= rsum (map c l) * e.
Proof.
  intros A c t l s e H. induction l as [|x l IH].
  - unfold rsum. simpl. replace (0 - 0 * s) with 0 by ring. rewrite Rabs_R0. lra.
  - cbn [map]. unfold rsum in *. cbn [fold_right].
    destruct (H x ltac:(left; reflexivity)) as (H1 & H2).
    specialize (IH ltac:(intros; apply H; right; assumption)).
    assert (Q : Rabs (c x * (t x - s)) <= c x * e).
    { rewrite Rabs_mult, (Rabs_right (c x)) by lra. apply Rmult_le_compat_l; assumption. }
    pose proof (rabs_add _ _ _ _ Q IH) as P.
    match goal with |- Rabs ?a <= ?b => match type of P with Rabs ?a' <= ?b' =>
      replace a with a' by ring; replace b with b' by ring end end. exact P.
Qed.

Lemma stop_all : forall v zs, (forall z, 0 <= v z) -> stop 0 v zs = zs.
Proof.
  intros v zs H. induction zs as [|z zs IH]; [reflexivity |]. simpl. specialize (H z).
  destruct (Rlt_dec (v z) 0); [lra |]. rewrite IH. reflexivity.
Qed.

Lemma chord : forall k b d h f a v, 0 < f -> 0 < h ->
  (match k with Voronoi => 0 < d <= h | _ => d < h * h end) ->
  tau_kern_inner (fun _ _ => 1) k b (match k with Voronoi => f * d | _ => f * d * f end) (f * h) a v = f * sampled k d h /\
  m_vhigh k (match k with Voronoi => f * d | _ => f * d * f end) (f * h) = f * half_extent k d h.
Proof.
  intros k b d h f a v Hf Hh T.
  assert (Q : d < h * h -> f * d * f < f * h * (f * h) /\ sqrt (f * h * (f * h) - f * d * f) = f * sqrt (h * h - d)).
  { intros Hd. split; [assert (0 < f * f * (h * h - d)) by (apply Rmult_lt_0_compat; nra); nra |].
    replace (f * h * (f * h) - f * d * f) with (f * f * (h * h - d)) by ring.
    rewrite sqrt_mult by nra. rewrite sqrt_square by lra. reflexivity. }
  assert (SP : forall K : R -> R, trapezium (fun u => 1 * K (sqrt (f * d * f + u * u) / (f * h))) (- (f * sqrt (h * h - d))) (f * sqrt (h * h - d)) 8
     = f * trapezium (fun z => K (sqrt (d + z * z) / h)) (- sqrt (h * h - d)) (sqrt (h * h - d)) 8).
  { intros K. rewrite (trapezium_ext _ (fun u => (fun z => K (sqrt (d + z * z) / h)) ((u - 0) / f))).
    - rewrite (trapezium_scale (fun z => K (sqrt (d + z * z) / h)) f 0) by lra. f_equal. f_equal; field; lra.
    - intros u. rewrite Rmult_1_l. f_equal.
      replace (f * d * f + u * u) with (f * f * (d + (u - 0) / f * ((u - 0) / f))) by (field; lra).
      rewrite sqrt_mult_alt by nra. rewrite sqrt_square by lra. field. split; lra. }
  destruct k; unfold sampled, half_extent.
  - destruct (Q T) as (Q1 & Q2). split.
    + rewrite C13_defect_aux by assumption. rewrite Q2. ring.
    + simpl. destruct (Rlt_dec _ _); [assumption | lra].
  - destruct (Q T) as (Q1 & Q2). split.
    + rewrite (C13_sph_aux (fun _ _ => 1) Cubic b) by (auto; nra). cbv zeta. rewrite Q2, SP. f_equal.
      apply trapezium_ext. intros z. apply C12_splines_aux. apply Rdiv_le_0_compat; [apply sqrt_pos | assumption].
    + simpl. destruct (Rlt_dec _ _); [assumption | lra].
  - split.
    + rewrite C13_defect_voronoi_aux by nra. field.
    + simpl. destruct (Rlt_dec 0 (f * d)); [| nra]. destruct (Rlt_dec 0 (f * h)); [| nra]. field.
  - destruct (Q T) as (Q1 & Q2). split.
    + rewrite (C13_sph_aux (fun _ _ => 1) Quintic b) by (auto; nra). cbv zeta. rewrite Q2, SP. f_equal.
      apply trapezium_ext. intros z. apply C12_splines_aux. apply Rdiv_le_0_compat; [apply sqrt_pos | assumption].
    + simpl. destruct (Rlt_dec _ _); [assumption | lra].
Qed.

End Outer.
