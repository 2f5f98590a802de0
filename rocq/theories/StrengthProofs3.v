(** The rules over the whole window, and the total of one particle. *)
From Coq Require Import Reals ZArith Lra Lia Bool.
From Coquelicot Require Import Coquelicot.
From Coq Require Import List.
From Flocq Require Import Core.Raux.
From Verif Require Import AbsorptionModel AbsorptionSpec KernelProofs AbsorptionProofs TauProofs IoniseProofs.
From Verif Require Import StrengthSpec StrengthProofs StrengthProofs2.
Import ListNotations.
Local Open Scope R_scope.

Definition AA (ka x : R) : R := erf0 x + ka * g1 x.

Lemma rabs_add : forall a b x y, Rabs a <= x -> Rabs b <= y -> Rabs (a + b) <= x + y.
Proof. intros a b x y Ha Hb. pose proof (Rabs_triang a b). lra. Qed.

Lemma trap_sum : forall h a (n : nat), 0 <= h ->
  Rabs (h * (ge a / 2 + rsum (map (fun i => ge (a + INR i * h)) (seq 1 n)) + ge (a + INR (S n) * h) / 2)
        - (AA (h ^ 2 / 12) (a + INR (S n) * h) - AA (h ^ 2 / 12) a))
  <= h ^ 4 / 384 * (vv (a + INR (S n) * h) - vv a).
Proof.
  intros h a n Hh. induction n as [|n IH].
  - pose proof (trap_panel (a + h / 2) (h / 2) ltac:(lra)) as P.
    replace (a + h / 2 - h / 2) with a in P by ring. replace (a + h / 2 + h / 2) with (a + h) in P by field.
    cbn [seq map]. unfold rsum. cbn [fold_right]. replace (INR 1 * h) with h by (simpl; ring). unfold AA.
    match goal with |- Rabs ?e <= ?f => match type of P with Rabs ?e' <= ?f' =>
      replace e with e' by field; replace f with f' by field end end.
    exact P.
  - pose proof (trap_panel (a + INR (S n) * h + h / 2) (h / 2) ltac:(lra)) as P.
    set (y := a + INR (S n) * h) in *.
    replace (y + h / 2 - h / 2) with y in P by ring. replace (y + h / 2 + h / 2) with (y + h) in P by field.
    assert (E : a + INR (S (S n)) * h = y + h) by (unfold y; rewrite (S_INR (S n)); ring). rewrite E.
    rewrite seq_S, map_app, rsum_app. cbn [map]. unfold rsum at 2. cbn [fold_right].
    change (1 + n)%nat with (S n). fold y.
    pose proof (rabs_add _ _ _ _ IH P) as H. unfold AA in *.
    match goal with |- Rabs ?e <= ?f => match type of H with Rabs ?e' <= ?f' =>
      replace e with e' by field; replace f with f' by field end end.
    exact H.
Qed.

(** P estimates the integral of ge over a pixel of width w up to the correction ka and the variation times C. *)
Definition est (P : R -> R) (w ka C : R) : Prop :=
  forall x, Rabs (P x - (AA ka (x + w) - AA ka x)) <= C * (vv (x + w) - vv x).

Lemma est_wide : forall w (m : nat), 0 <= w -> (1 <= m)%nat ->
  est (fun x => trapezium ge x (x + w) m) w ((w / INR m) ^ 2 / 12) ((w / INR m) ^ 4 / 384).
Proof.
  intros w m Hw Hm x. destruct m as [|n]; [lia |].
  assert (HI : 0 < INR (S n)) by (apply lt_0_INR; lia).
  pose proof (trap_sum (w / INR (S n)) x n) as H.
  assert (Hh : 0 <= w / INR (S n)) by (apply Rdiv_le_0_compat; lra). specialize (H Hh).
  replace (x + INR (S n) * (w / INR (S n))) with (x + w) in H by (field; lra).
  unfold trapezium. replace (x + w - x) with w by ring.
  replace (S n - 1)%nat with n by lia.
  exact H.
Qed.

Lemma est_narrow : forall w, 0 <= w -> est (fun x => w * ge (x + w / 2)) w (- (w ^ 2 / 24)) (w ^ 4 / 384).
Proof.
  intros w Hw x. pose proof (mid_panel (x + w / 2) (w / 2) ltac:(lra)) as P.
  replace (x + w / 2 - w / 2) with x in P by ring. replace (x + w / 2 + w / 2) with (x + w) in P by field.
  unfold AA.
  match goal with |- Rabs ?e <= ?f => match type of P with Rabs ?e' <= ?f' =>
    replace e with e' by field; replace f with f' by field end end.
  exact P.
Qed.

Lemma est_up : forall P w ka C, est P w ka C -> forall x (n : nat),
  Rabs (rsum (map (fun i => P (x + INR i * w)) (seq 0 n)) - (AA ka (x + INR n * w) - AA ka x))
  <= C * (vv (x + INR n * w) - vv x).
Proof.
  intros P w ka C HP x n. induction n as [|n IH].
  - unfold rsum. simpl. replace (x + 0 * w) with x by ring. replace (0 - (AA ka x - AA ka x)) with 0 by ring.
    rewrite Rabs_R0. lra.
  - rewrite seq_S, map_app, rsum_app. cbn [map]. unfold rsum at 2. cbn [fold_right]. change (0 + n)%nat with n.
    specialize (HP (x + INR n * w)).
    replace (x + INR (S n) * w) with (x + INR n * w + w) by (rewrite S_INR; ring).
    pose proof (rabs_add _ _ _ _ IH HP) as H.
    match goal with |- Rabs ?e <= ?f => match type of H with Rabs ?e' <= ?f' =>
      replace e with e' by ring; replace f with f' by ring end end.
    exact H.
Qed.

Lemma est_down : forall P w ka C, est P w ka C -> forall x (n : nat),
  Rabs (rsum (map (fun i => P (x - w - INR i * w)) (seq 0 n)) - (AA ka x - AA ka (x - INR n * w)))
  <= C * (vv x - vv (x - INR n * w)).
Proof.
  intros P w ka C HP x n. induction n as [|n IH].
  - unfold rsum. simpl. replace (x - 0 * w) with x by ring. replace (0 - (AA ka x - AA ka x)) with 0 by ring.
    rewrite Rabs_R0. lra.
  - rewrite seq_S, map_app, rsum_app. cbn [map]. unfold rsum at 2. cbn [fold_right]. change (0 + n)%nat with n.
    specialize (HP (x - w - INR n * w)).
    replace (x - w - INR n * w + w) with (x - INR n * w) in HP by ring.
    replace (x - INR (S n) * w) with (x - w - INR n * w) by (rewrite S_INR; ring).
    pose proof (rabs_add _ _ _ _ IH HP) as H.
    match goal with |- Rabs ?e <= ?f => match type of H with Rabs ?e' <= ?f' =>
      replace e with e' by ring; replace f with f' by ring end end.
    exact H.
Qed.

Lemma ge_even : forall x, ge (- x) = ge x.
Proof. intros x. unfold ge. f_equal. ring. Qed.

Lemma ge_anti : forall q x, 0 <= q <= x -> ge x <= ge q.
Proof. intros q x H. unfold ge. apply exp_le. nra. Qed.

Lemma g1_anti : forall q x, 1 <= q <= x -> 0 <= - g1 x <= - g1 q.
Proof.
  intros q x H. split.
  - unfold g1. pose proof (ge_pos x). nra.
  - assert (A : g1 q <= g1 x).
    { apply (incr g1 g2); [lra | intros; apply g1_derive |].
      intros y Hy. unfold g2. apply Rmult_le_pos; [nra | left; apply ge_pos]. }
    lra.
Qed.

Lemma vv_odd : forall x, vv (- x) = - vv x.
Proof. intros x. unfold vv. rewrite erf0_odd, ge_even. ring. Qed.

Lemma vv_top : forall x, 0 <= x -> vv x <= 41 / 2 * (sqrt PI / 2).
Proof.
  intros x Hx. unfold vv. pose proof (erf0_bounds x Hx) as (_ & B). pose proof (ge_pos x).
  assert (0 <= (8 * x * x * x + 17 / 2 * x) * ge x).
  { apply Rmult_le_pos; [| lra]. assert (0 <= x * x * x) by (apply Rmult_le_pos; nra). nra. }
  lra.
Qed.

Lemma window_total : forall q x y ka, 1 <= q -> q <= x -> y <= - q -> Rabs ka <= 1 / 48 ->
  Rabs (AA ka x - AA ka y - sqrt PI) <= sqrt PI * ((1 + q) * ge q) /\ vv x - vv y <= 41 / 2 * sqrt PI.
Proof.
  intros q x y ka Hq Hx Hy Hk.
  assert (Ey : y = - (- y)) by ring. set (z := - y) in *. assert (Hz : q <= z) by lra. rewrite Ey.
  pose proof (erf0_bounds x ltac:(lra)) as Bx. pose proof (erf0_bounds z ltac:(lra)) as Bz.
  pose proof (ge_anti q x ltac:(lra)) as Gx. pose proof (ge_anti q z ltac:(lra)) as Gz.
  pose proof (g1_anti q x ltac:(lra)) as Kx. pose proof (g1_anti q z ltac:(lra)) as Kz.
  assert (S1 : 1 < sqrt PI). { rewrite <- sqrt_1. apply sqrt_lt_1; pose proof PI2_1; pose proof PI_RGT_0; lra. }
  assert (Kq : - g1 q = 2 * q * ge q) by (unfold g1; ring). rewrite Kq in *.
  pose proof (ge_pos q) as Gq.
  assert (G1 : g1 (- z) = - g1 z) by (unfold g1; rewrite ge_even; ring).
  split.
  - unfold AA. rewrite erf0_odd, G1.
    replace (erf0 x + ka * g1 x - (- erf0 z + ka * - g1 z) - sqrt PI)
      with ((erf0 x - sqrt PI / 2) + (erf0 z - sqrt PI / 2) + ka * (g1 x + g1 z)) by field.
    assert (A1 : Rabs (erf0 x - sqrt PI / 2) <= sqrt PI / 2 * ge q) by (apply Rabs_le; nra).
    assert (A2 : Rabs (erf0 z - sqrt PI / 2) <= sqrt PI / 2 * ge q) by (apply Rabs_le; nra).
    assert (A3 : Rabs (ka * (g1 x + g1 z)) <= sqrt PI * (q * ge q)).
    { rewrite Rabs_mult. apply Rle_trans with (1 / 48 * (4 * (q * ge q))).
      - apply Rmult_le_compat; try apply Rabs_pos; [assumption |]. apply Rabs_le. lra.
      - assert (0 < q * ge q) by (apply Rmult_lt_0_compat; lra). nra. }
    pose proof (rabs_add _ _ _ _ (rabs_add _ _ _ _ A1 A2) A3) as H. lra.
  - rewrite vv_odd. pose proof (vv_top x ltac:(lra)). pose proof (vv_top z ltac:(lra)). lra.
Qed.

(** The sum of the estimates over the pixels of the window. *)
Lemma window_sum : forall P w ka h x (n : nat) q, est P w ka (h ^ 4 / 384) -> Rabs ka <= h ^ 2 / 12 -> 0 <= h <= 1 / 2 ->
  1 <= q -> q <= x + INR n * w -> x - INR n * w <= - q ->
  Rabs (rsum (map (fun i => P (x + INR i * w)) (seq 0 n)) + rsum (map (fun i => P (x - w - INR i * w)) (seq 0 n)) - sqrt PI)
  <= sqrt PI * (h ^ 4 / 18 + (1 + q) * ge q).
Proof.
  intros P w ka h x n q HP Hk Hh Hq H1 H2.
  pose proof (est_up _ _ _ _ HP x n) as U. pose proof (est_down _ _ _ _ HP x n) as W.
  destruct (window_total q (x + INR n * w) (x - INR n * w) ka Hq H1 H2) as (A & B).
  { apply Rle_trans with (1 := Hk). nra. }
  pose proof (rabs_add _ _ _ _ (rabs_add _ _ _ _ U W) A) as H.
  match goal with |- Rabs ?e <= _ => match type of H with Rabs ?e' <= ?f' => replace e with e' by ring;
    apply Rle_trans with (1 := H) end end.
  assert (S0 : 0 <= sqrt PI) by apply sqrt_pos.
  assert (h ^ 4 / 384 * (vv (x + INR n * w) - vv (x - INR n * w)) <= h ^ 4 / 384 * (41 / 2 * sqrt PI)).
  { apply Rmult_le_compat_l; [| assumption]. assert (0 <= h ^ 4) by (apply pow_le; lra). lra. }
  assert (0 <= h ^ 4 * sqrt PI) by (apply Rmult_le_pos; [apply pow_le; lra | assumption]). nra.
Qed.
