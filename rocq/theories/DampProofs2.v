(** Proofs about turn_off_selfshield: absorption strictly lost in the wings. *)
From Coq Require Import ZArith List Bool Reals Lra Lia.
From Flocq Require Import Core.Raux.
From Verif Require Import AbsorptionModel AbsorptionSpec KernelProofs AbsorptionProofs TauProofs NeutralModel DampModel DampSpec DampProofs.
Import ListNotations.
Local Open Scope R_scope.

Lemma fold_plus_lt : forall (A : Type) (f g : A -> R) l a a', a <= a' -> (forall x, In x l -> f x <= g x) ->
  (a < a' \/ exists x, In x l /\ f x < g x) ->
  fold_left (fun t x => t + f x) l a < fold_left (fun t x => t + g x) l a'.
Proof.
  intros A f g l. induction l as [|x t IH]; intros a a' Ha H [L|(y & Hy & L)]; simpl; try assumption; try contradiction.
  - pose proof (H x (or_introl eq_refl)). apply IH; [lra|intros z Hz; apply H; right; assumption|left; lra].
  - pose proof (H x (or_introl eq_refl)). apply IH; [lra|intros z Hz; apply H; right; assumption|].
    destruct Hy as [<-|Hy]; [left; lra|right; exists y; split; assumption].
Qed.

Lemma cubic_pos : forall q, 0 <= q < 1 -> 0 < sph_cubic_kernel q.
Proof.
  intros q Hq. pose proof PI_RGT_0. apply Rlt_le_trans with (sph_cubic_kernel (Rmax q (2 / 3))).
  - assert (B : 2 / 3 <= Rmax q (2 / 3) < 1) by (split; [apply Rmax_r|apply Rmax_lub_lt; lra]).
    unfold sph_cubic_kernel. set (m := Rmax q (2 / 3)) in *. destruct (Rle_dec 1 m); [lra|]. destruct (Rlt_dec m (1 / 2)); [lra|].
    apply Rmult_lt_0_compat; [apply Rmult_lt_0_compat; [lra|apply Rinv_0_lt_compat; lra]|].
    apply Rmult_lt_0_compat; [lra|apply pow_lt; lra].
  - apply cubic_dec; [lra|apply Rmax_l].
Qed.

Lemma quintic_pos : forall q, 0 <= q < 1 -> 0 < sph_quintic_kernel q.
Proof.
  intros q Hq. pose proof PI_RGT_0. apply Rlt_le_trans with (sph_quintic_kernel (Rmax q (2 / 3))).
  - assert (B : 2 / 3 <= Rmax q (2 / 3) < 1) by (split; [apply Rmax_r|apply Rmax_lub_lt; lra]).
    unfold sph_quintic_kernel. set (m := Rmax q (2 / 3)) in *. destruct (Rle_dec 1 m); [lra|]. destruct (Rlt_dec m (1 / 3)); [lra|].
    destruct (Rlt_dec m (2 / 3)); [lra|].
    apply Rmult_lt_0_compat; [apply Rmult_lt_0_compat; [lra|apply Rinv_0_lt_compat; lra]|].
    apply Rmult_lt_0_compat; [lra|apply pow_lt; lra].
  - apply quintic_dec; [lra|apply Rmax_l].
Qed.

Lemma inner_lt : forall P k b d h a v U, 0 < b -> 0 < h -> 0 <= d -> (k = Voronoi -> 0 < d < h) -> (k <> Voronoi -> d < h * h) ->
  (forall u, U <= Rabs u -> P u 0 < P u a) -> U * b + m_vhigh k d h <= Rabs v ->
  tau_kern_inner P k b d h 0 v < tau_kern_inner P k b d h a v.
Proof.
  intros P k b d h a v U Hb Hh H0 Hk Hd HP Hv.
  assert (V : 0 < m_vhigh k d h).
  { destruct k; cbn [m_vhigh].
    - specialize (Hd ltac:(discriminate)). destruct (Rlt_dec d (h * h)); [apply sqrt_lt_R0; lra|lra].
    - specialize (Hd ltac:(discriminate)). destruct (Rlt_dec d (h * h)); [apply sqrt_lt_R0; lra|lra].
    - specialize (Hk eq_refl). destruct (Rlt_dec 0 d); [|lra]. destruct (Rlt_dec 0 h); lra.
    - specialize (Hd ltac:(discriminate)). destruct (Rlt_dec d (h * h)); [apply sqrt_lt_R0; lra|lra]. }
  assert (HS : forall i, In i (seq 1 7) -> let w := INR i * (2 * m_vhigh k d h / 8) - m_vhigh k d h in P ((w - v) / b) 0 < P ((w - v) / b) a).
  { intros i Hi w. apply in_seq in Hi. apply HP. unfold Rdiv at 1.
    rewrite Rabs_mult, (Rabs_right (/ b)) by (apply Rle_ge; left; apply Rinv_0_lt_compat; assumption).
    apply Rmult_le_reg_r with b; [assumption|]. rewrite Rmult_assoc, Rinv_l, Rmult_1_r by lra.
    assert (B1 : 0 <= INR i) by apply pos_INR.
    assert (B2 : INR i <= 8) by (replace 8 with (INR 8) by (simpl; lra); apply le_INR; lia).
    assert (W : - m_vhigh k d h <= w <= m_vhigh k d h) by (unfold w; split; nra).
    unfold Rabs in *. destruct (Rcase_abs v), (Rcase_abs (w - v)); lra. }
  unfold tau_kern_inner. cbv zeta. apply Rmult_lt_compat_l; [lra|]. apply fold_plus_lt; [lra| |].
  - intros i Hi. apply Rmult_le_compat_r; [|left; apply HS; assumption].
    apply weight_nonneg. apply Rmult_le_pos; [apply sqrt_pos|left; apply Rinv_0_lt_compat; assumption].
  - right. exists 4%nat. assert (I4 : In 4%nat (seq 1 7)) by (apply in_seq; lia). split; [assumption|].
    apply Rmult_lt_compat_r; [|apply HS; assumption].
    replace (INR 4 * (2 * m_vhigh k d h / 8) - m_vhigh k d h) with 0 by (simpl; field).
    replace (d + 0 * 0) with d by ring. pose proof PI_RGT_0.
    assert (Q : k <> Voronoi -> 0 <= sqrt d / h < 1).
    { intros N. specialize (Hd N). split; [apply Rmult_le_pos; [apply sqrt_pos|left; apply Rinv_0_lt_compat; assumption]|].
      apply Rmult_lt_reg_r with h; [assumption|]. unfold Rdiv. rewrite Rmult_assoc, Rinv_l, Rmult_1_r, Rmult_1_l by lra.
      rewrite <- (sqrt_square h) by lra. apply sqrt_lt_1_alt. split; assumption. }
    destruct k; cbn [tau_weight].
    + apply Rmult_lt_0_compat; [lra|apply Rinv_0_lt_compat; lra].
    + apply cubic_pos, Q. discriminate.
    + lra.
    + apply quintic_pos, Q. discriminate.
Qed.

Lemma outer_lt : forall P k b d h a lo hi U, 0 < b -> 0 < h -> 0 <= U -> lo < hi -> 0 <= d -> (k = Voronoi -> 0 < d < h) ->
  (k <> Voronoi -> d < h * h) -> (forall u, U <= Rabs u -> P u 0 < P u a) -> apart lo hi (m_vhigh k d h) (U * b) ->
  tau_kern_outer P k b d h 0 lo hi < tau_kern_outer P k b d h a lo hi.
Proof.
  intros P k b d h a lo hi U Hb Hh HU Hl H0 Hk Hd HP HA.
  assert (V : 0 <= m_vhigh k d h) by (apply vhigh_nonneg; intros E; specialize (Hk E); lra).
  assert (UB : 0 <= U * b) by (apply Rmult_le_pos; lra).
  assert (I : forall v, lo <= v <= hi -> tau_kern_inner P k b d h 0 v < tau_kern_inner P k b d h a v).
  { intros v Hv. apply inner_lt with U; try assumption. destruct HA as [HA|HA].
    - rewrite Rabs_right; lra.
    - rewrite Rabs_left1; lra. }
  unfold tau_kern_outer. destruct (Rlt_dec (hi - lo) (b / 2)) as [G|G]; [apply I; lra|].
  set (c := Zceil ((hi - lo) / (b / 2) / 2)).
  assert (C : (1 <= c)%Z).
  { unfold c. apply Z.lt_pred_le. apply lt_IZR. simpl. apply Rlt_le_trans with ((hi - lo) / (b / 2) / 2); [|apply Zceil_ub].
    apply Rmult_lt_0_compat; [|lra]. apply Rmult_lt_0_compat; [lra|apply Rinv_0_lt_compat; lra]. }
  set (np := (2 * c + 1)%Z). assert (N : 2 <= IZR np - 1).
  { unfold np. rewrite plus_IZR, mult_IZR. apply IZR_le in C. lra. }
  cbv zeta. apply Rmult_lt_compat_r; [apply Rinv_0_lt_compat; lra|].
  apply Rplus_lt_compat; [|apply Rmult_lt_compat_r; [lra|apply I; lra]].
  assert (F : tau_kern_inner P k b d h 0 lo / 2 < tau_kern_inner P k b d h a lo / 2) by (apply Rmult_lt_compat_r; [lra|apply I; lra]).
  apply fold_plus_lt; [lra| |left; exact F].
  intros i Hi. apply in_seq in Hi. left. apply I.
  assert (B : 0 <= INR i <= IZR np - 1).
  { split; [apply pos_INR|]. rewrite INR_IZR_INZ, <- minus_IZR. apply IZR_le. lia. }
  assert (D : 0 < (hi - lo) / (IZR np - 1)) by (apply Rmult_lt_0_compat; [lra|apply Rinv_0_lt_compat; lra]).
  assert (E : (IZR np - 1) * ((hi - lo) / (IZR np - 1)) = hi - lo) by (field; lra).
  split; nra.
Qed.

Lemma C129_lost_aux : forall P L k (n : nat) dr2 dens vel temp smooth z U,
  (0 < n)%nat -> 0 < sigma_a L -> 0 < bfac L -> 0 < velfac L -> 0 < vbox L -> 0 < dens -> 0 < temp -> 0 < smooth -> 0 <= U -> 0 <= dr2 ->
  (k = Voronoi -> 0 < dr2 < smooth) -> (k <> Voronoi -> dr2 < smooth * smooth) ->
  let b := bfac L * sqrt temp in let bin := vbox L / INR n in
  (forall u, U <= Rabs u -> P u 0 < P u (voigt_fac L / b)) ->
  apart (IZR z * bin - vel) (IZR z * bin - vel + bin) (velfac L * half_extent k dr2 smooth) (U * b) ->
  pixel_tau P (without_damping L) k n dr2 dens vel temp smooth z < pixel_tau P L k n dr2 dens vel temp smooth z.
Proof.
  intros P L k n dr2 dens vel temp smooth z U Hn Hs Hb Hv Hx Hd Ht Hh HU H0 Hk Hr b bin HP HA.
  assert (Bp : 0 < b) by (apply Rmult_lt_0_compat; [assumption|apply sqrt_lt_R0; assumption]).
  assert (Bi : 0 < bin) by (apply Rmult_lt_0_compat; [assumption|apply Rinv_0_lt_compat, lt_0_INR; lia]).
  unfold pixel_tau, without_damping. cbn [tautail sigma_a bfac voigt_fac velfac vbox]. fold b bin.
  apply Rmult_lt_compat_r; [apply Rinv_0_lt_compat; assumption|].
  apply Rmult_lt_compat_l.
  { apply Rmult_lt_0_compat; [|assumption]. apply Rmult_lt_0_compat.
    - apply Rmult_lt_0_compat; [assumption|]. apply Rinv_0_lt_compat, sqrt_lt_R0, PI_RGT_0.
    - apply Rmult_lt_0_compat; [unfold light_kms; lra|apply Rinv_0_lt_compat; assumption]. }
  replace (0 / b) with 0 by (unfold Rdiv; ring).
  assert (Hk' : k = Voronoi -> dr2 <= smooth) by (intros E; specialize (Hk E); lra).
  pose proof (edge_of k L dr2 smooth Hv Hh Hk' Hr) as E.
  assert (VV : 0 < velfac L * velfac L) by nra.
  apply outer_lt with U; try assumption.
  - apply Rmult_lt_0_compat; assumption.
  - lra.
  - destruct k; try (rewrite Rmult_comm, <- Rmult_assoc); apply Rmult_le_pos; lra.
  - intros ->. specialize (Hk eq_refl). split; [apply Rmult_lt_0_compat; lra|apply Rmult_lt_compat_l; lra].
  - intros N. specialize (Hr N). destruct k; try congruence;
      (replace (velfac L * dr2 * velfac L) with (velfac L * velfac L * dr2) by ring;
       replace (velfac L * smooth * (velfac L * smooth)) with (velfac L * velfac L * (smooth * smooth)) by ring;
       apply Rmult_lt_compat_l; assumption).
  - destruct HA as [HA|HA]; [left|right]; lra.
Qed.
