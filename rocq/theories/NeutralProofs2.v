(** The self-shielded neutral fraction: temperature, published coefficients. *)
From Coq Require Import Reals List Bool Arith Lia Lra.
From Verif Require Import NeutralModel NeutralSpec NeutralProofs.
Import ListNotations.
Local Open Scope R_scope.

(** ** Temperature *)

Lemma root_mono : forall al la g al' la' g', 0 < al' <= al -> 0 <= la <= la' -> 0 < g -> g < g' ->
  root al' la' g' < root al la g.
Proof.
  intros al la g al' la' g' HA HL G G'.
  pose proof (root_range al la ltac:(lra) ltac:(lra) g G) as [P Q].
  pose proof (below_one al la ltac:(lra) ltac:(lra)).
  pose proof (factor al la ltac:(lra) ltac:(lra) g (root al la g) ltac:(lra)) as F.
  pose proof (factor al' la' ltac:(lra) ltac:(lra) g' (root al la g) ltac:(lra)) as F'.
  pose proof (other_gt1 al' la' ltac:(lra) ltac:(lra) g' ltac:(lra)) as O.
  set (x := root al la g) in *.
  replace ((al + la) * (x - x) * (x - other al la g)) with 0 in F by ring.
  assert (NEG : (al' + la') * (x - root al' la' g') * (x - other al' la' g') < 0).
  { rewrite <- F'.
    assert (0 < (g' - g) * x) by (apply Rmult_lt_0_compat; lra).
    assert (0 <= (al - al') * ((1 - x) * (1 - x)))
      by (apply Rmult_le_pos; [lra | apply Rmult_le_pos; lra]).
    assert (0 <= (la' - la) * (x * (1 - x)))
      by (apply Rmult_le_pos; [lra | apply Rmult_le_pos; lra]).
    lra. }
  destruct (Rlt_dec (root al' la' g') x) as [L | L]; auto. exfalso.
  assert (0 <= (al' + la') * (root al' la' g' - x) * (other al' la' g' - x)).
  { apply Rmult_le_pos; [apply Rmult_le_pos|]; lra. }
  lra.
Qed.

Lemma saturating : forall c u v, 0 < c -> 0 < u < v -> u / (1 + c * u) < v / (1 + c * v).
Proof.
  intros c u v C H.
  assert (0 < c * u) by (apply Rmult_lt_0_compat; lra).
  assert (0 < c * v) by (apply Rmult_lt_0_compat; lra).
  assert (E : v / (1 + c * v) - u / (1 + c * u) = (v - u) / ((1 + c * v) * (1 + c * u)))
    by (field; lra).
  assert (0 < (v - u) / ((1 + c * v) * (1 + c * u))).
  { apply Rdiv_pos; [lra|]. apply Rmult_lt_0_compat; lra. }
  lra.
Qed.

Lemma recomb_shape : forall l a b c d, 0 < l -> 0 < c ->
  Rpower l a / Rpower (1 + Rpower (l / c) b) d
  = Rpower l (a - b * d) * Rpower (Rpower l b / (1 + Rpower (/ c) b * Rpower l b)) d.
Proof.
  intros l a b c d L C.
  assert (LC : Rpower (l / c) b = Rpower (/ c) b * Rpower l b).
  { unfold Rdiv. rewrite <- Rpower_mult_distr by (auto; now apply Rinv_0_lt_compat). ring. }
  rewrite LC. set (k := 1 + Rpower (/ c) b * Rpower l b).
  assert (K : 0 < k).
  { unfold k. pose proof (Rpower_pos (/ c) b). pose proof (Rpower_pos l b).
    assert (0 < Rpower (/ c) b * Rpower l b) by (now apply Rmult_lt_0_compat). lra. }
  unfold Rdiv. rewrite <- (Rpower_mult_distr (Rpower l b) (/ k))
    by (try apply Rpower_pos; now apply Rinv_0_lt_compat).
  rewrite Rpower_mult, <- Rmult_assoc, <- Rpower_plus.
  replace (a - b * d + b * d) with a by ring. f_equal.
  rewrite <- Rpower_Ropp. unfold Rpower. f_equal. rewrite ln_Rinv by auto. ring.
Qed.

Lemma recomb_decr : forall t t', 0 < t < t' -> recomb_rate t' < recomb_rate t.
Proof.
  intros t t' H. unfold recomb_rate. cbv zeta.
  assert (L' : 0 < 315614 / t') by (apply Rdiv_pos; lra).
  assert (L : 315614 / t' < 315614 / t) by (apply div_lt_r; lra).
  set (l' := 315614 / t') in *. set (l := 315614 / t) in *. clearbody l l'.
  assert (AS : forall k x y, k * x / y = k * (x / y)) by (intros; unfold Rdiv; ring).
  rewrite !AS. clear AS. apply Rmult_lt_compat_l; [lra|].
  rewrite !recomb_shape by lra.
  apply Rmult_gt_0_lt_compat; try apply Rpower_pos.
  - apply Rpower_incr; lra.
  - apply Rpower_incr; [lra|]. split.
    + apply Rdiv_pos; [apply Rpower_pos|].
      assert (0 < Rpower (/ 0.522) 0.47 * Rpower l' 0.47)
        by (apply Rmult_lt_0_compat; apply Rpower_pos). lra.
    + apply saturating; [apply Rpower_pos|]. split; [apply Rpower_pos|].
      apply Rpower_incr; lra.
Qed.

Lemma collisional_shape : forall t, 0 < t ->
  collisional_rate t
  = 1.17e-10 * (exp (-157809 / t) * (sqrt t / (1 + sqrt (/ 1e5) * sqrt t))).
Proof.
  intros t T. unfold collisional_rate.
  replace 0.5 with (/ 2) by lra. rewrite Rpower_sqrt by auto.
  assert (E : sqrt (t / 1e5) = sqrt (/ 1e5) * sqrt t).
  { unfold Rdiv. rewrite Rmult_comm, sqrt_mult; auto; lra. }
  rewrite E. unfold Rdiv. ring.
Qed.

Lemma collisional_incr : forall t t', 0 < t < t' -> collisional_rate t < collisional_rate t'.
Proof.
  intros t t' H. rewrite !collisional_shape by lra.
  apply Rmult_lt_compat_l; [lra|].
  assert (C : 0 < sqrt (/ 1e5)) by (apply sqrt_lt_R0; lra).
  assert (S1 : 0 < sqrt t) by (apply sqrt_lt_R0; lra).
  assert (S2 : sqrt t < sqrt t') by (apply sqrt_lt_1; lra).
  apply Rmult_gt_0_lt_compat.
  - apply Rdiv_pos; auto. assert (0 < sqrt (/ 1e5) * sqrt t) by (now apply Rmult_lt_0_compat). lra.
  - apply exp_pos.
  - apply exp_increasing. pose proof (div_lt_r 157809 t t' ltac:(lra) ltac:(lra) ltac:(lra)).
    replace (-157809 / t) with (- (157809 / t)) by (unfold Rdiv; ring).
    replace (-157809 / t') with (- (157809 / t')) by (unfold Rdiv; ring). lra.
  - apply saturating; auto.
Qed.

Lemma shield_dens_incr : forall b t t', 0 < t < t' -> self_shield_dens b t < self_shield_dens b t'.
Proof.
  intros b t t' H. unfold self_shield_dens.
  do 2 (apply Rmult_lt_compat_r; [apply Rpower_pos|]).
  apply Rmult_lt_compat_l.
  - apply Rmult_lt_0_compat; [lra | apply Rpower_pos].
  - apply Rpower_incr; lra.
Qed.

Lemma photo_incr_temp : forall b nH t t', 0 < gamma_UVB b -> 0 < nH -> 0 < t < t' ->
  photo_rate b nH t < photo_rate b nH t'.
Proof.
  intros b nH t t' G N H. rewrite !photo_rate_eq. apply Rmult_lt_compat_r; auto.
  pose proof (shield_dens_pos b t). pose proof (shield_dens_pos b t').
  apply ratio_decr. split; [now apply Rdiv_pos|]. apply div_lt_r; auto. now apply shield_dens_incr.
Qed.

Lemma C39_temperature_aux : forall b nH t t', 0 < gamma_UVB b -> 0 < nH -> 0 < t < t' ->
  recomb_rate t' < recomb_rate t /\ collisional_rate t < collisional_rate t' /\
  photo_rate b nH t < photo_rate b nH t' /\
  neutral_fraction b nH t' < neutral_fraction b nH t.
Proof.
  intros b nH t t' G N H.
  pose proof (recomb_decr t t' H). pose proof (collisional_incr t t' H).
  pose proof (photo_incr_temp b nH t t' G N H) as PI. repeat split; auto.
  rewrite !neutral_root. pose proof (recomb_pos t'). pose proof (collisional_pos t).
  apply root_mono; try lra.
  - apply Rdiv_pos; auto. now apply photo_range.
  - now apply div_lt_l.
Qed.

(** ** Published coefficients *)

Lemma cube : forall x y, (Rpower x y) ^ 3 = Rpower x (3 * y).
Proof.
  intros. rewrite <- Rpower_pow by apply Rpower_pos. rewrite Rpower_mult. f_equal.
  replace (INR 3) with 3 by (simpl; ring). ring.
Qed.

Lemma Rpower_m1 : forall x, 0 < x -> Rpower x (-1) = / x.
Proof. intros. replace (-1) with (- (1)) by ring. rewrite Rpower_Ropp, Rpower_1; auto. Qed.

Lemma Rpower_m2 : forall x, 0 < x -> Rpower x (-2) = / x ^ 2.
Proof.
  intros. replace (-2) with (- (2)) by ring. rewrite Rpower_Ropp.
  rewrite <- (Rpower_pow 2) by auto. replace (INR 2) with 2 by (simpl; ring). reflexivity.
Qed.

Lemma C39_shielding_aux : forall b t,
  0 < gray_opac b -> 0 < gamma_UVB b -> 0 < f_bar b -> 0 < t ->
  self_shield_dens b t ^ 3 * (gray_opac b / 2.49e-18) ^ 2 * (f_bar b / 0.17)
  = 6.73e-3 ^ 3 * Rpower (t / 1e4) 0.51 * (gamma_UVB b / 1e-12) ^ 2.
Proof.
  intros b t A B C T. unfold self_shield_dens.
  assert (A' : 0 < gray_opac b / 2.49e-18) by (apply Rdiv_pos; lra).
  assert (B' : 0 < gamma_UVB b / 1e-12) by (apply Rdiv_pos; lra).
  assert (C' : 0 < f_bar b / 0.17) by (apply Rdiv_pos; lra).
  set (a := gray_opac b / 2.49e-18) in *. set (g := gamma_UVB b / 1e-12) in *.
  set (f := f_bar b / 0.17) in *. set (u := t / 1e4).
  set (k := 6.73e-3). clearbody a g f u k.
  rewrite !Rpow_mult_distr, !cube.
  replace (3 * (-2 / 3)) with (-2) by field. replace (3 * 0.17) with 0.51 by lra.
  replace (3 * (2 / 3)) with (INR 2) by (simpl; field).
  replace (3 * (-1 / 3)) with (-1) by field.
  rewrite Rpower_m1, Rpower_m2, Rpower_pow by auto. set (w := Rpower u 0.51). clearbody w.
  field. lra.
Qed.

Lemma bernoulli : forall x a, 0 < x -> 0 < a -> 1 - a * x <= Rpower (1 + x) (- a).
Proof.
  intros x a X A. unfold Rpower.
  pose proof (exp_ineq1_le (- a * ln (1 + x))) as I.
  assert (ln (1 + x) < x).
  { rewrite <- (ln_exp x) at 2. apply ln_increasing; [lra | apply exp_ineq1; lra]. }
  assert (a * ln (1 + x) < a * x) by (now apply Rmult_lt_compat_l). lra.
Qed.

Lemma tail_bound : forall x a, 0 < x -> 0 < a -> Rpower (1 + x) (- a) <= Rpower x (- a).
Proof. intros x a X A. left. apply Rpower_decr; lra. Qed.

Lemma C39_attenuation_aux : forall b t r, 0 < gamma_UVB b -> 0 < r ->
  photo_rate b (self_shield_dens b t) t
    = (0.98 * Rpower 2 (- 2.28) + 0.02 * Rpower 2 (- 0.84)) * gamma_UVB b /\
  (1 - 2.2344 * Rpower r 1.64 - 0.0168 * r) * gamma_UVB b
    <= photo_rate b (r * self_shield_dens b t) t
    <= (0.98 * Rpower r (- 3.7392) + 0.02 * Rpower r (- 0.84)) * gamma_UVB b.
Proof.
  intros b t r G H. pose proof (shield_dens_pos b t) as P. rewrite !photo_rate_eq.
  replace (self_shield_dens b t / self_shield_dens b t) with 1 by (field; lra).
  replace (r * self_shield_dens b t / self_shield_dens b t) with r by (field; lra).
  unfold ratio. split; [|split].
  - replace (Rpower 1 1.64) with 1
      by (unfold Rpower; rewrite ln_1, Rmult_0_r; symmetry; apply exp_0).
    replace (1 + 1) with 2 by ring. reflexivity.
  - replace (-2.28) with (- (2.28)) by lra. replace (-0.84) with (- (0.84)) by lra.
    apply Rmult_le_compat_r; [lra|]. pose proof (Rpower_pos r 1.64).
    pose proof (bernoulli (Rpower r 1.64) 2.28 ltac:(lra) ltac:(lra)).
    pose proof (bernoulli r 0.84 ltac:(lra) ltac:(lra)). lra.
  - replace (-2.28) with (- (2.28)) by lra. replace (-0.84) with (- (0.84)) by lra.
    apply Rmult_le_compat_r; [lra|].
    pose proof (tail_bound (Rpower r 1.64) 2.28 ltac:(apply Rpower_pos) ltac:(lra)) as I.
    pose proof (tail_bound r 0.84 ltac:(lra) ltac:(lra)) as J.
    rewrite Rpower_mult in I. replace (1.64 * - (2.28)) with (- 3.7392) in I by lra. lra.
Qed.

Lemma C39_rates_aux : forall c, 0 < c ->
  recomb_rate (315614 / (0.522 * c))
    = 1.269e-13 * Rpower (0.522 * c) 1.503 / Rpower (1 + Rpower c 0.47) 1.923 /\
  collisional_rate (1e5 * c ^ 2)
    = 1.17e-10 * sqrt 1e5 * c * exp (- 1.57809 / c ^ 2) / (1 + c).
Proof.
  intros c C. split.
  - unfold recomb_rate. cbv zeta. set (k := 315614). assert (0 < k) by (unfold k; lra). clearbody k.
    set (m := 0.522). assert (0 < m) by (unfold m; lra). clearbody m.
    replace (k / (k / (m * c))) with (m * c) by (field; lra).
    replace (m * c / m) with c by (field; lra). reflexivity.
  - assert (0 < c ^ 2) by (apply pow_lt; auto).
    unfold collisional_rate. replace 0.5 with (/ 2) by lra.
    rewrite Rpower_sqrt by lra. rewrite sqrt_mult by lra.
    replace (1e5 * c ^ 2 / 1e5) with (c ^ 2) by lra.
    rewrite sqrt_pow2 by lra.
    replace (-157809 / (1e5 * c ^ 2)) with (- 1.57809 / c ^ 2).
    + unfold Rdiv. ring.
    + unfold Rdiv. rewrite Rinv_mult_distr by lra. lra.
Qed.

Fixpoint knots_from (n : nat) (ys : list R) : list (R * R) :=
  match ys with [] => [] | y :: ys => (INR n, y) :: knots_from (S n) ys end.

Lemma interp_knots : forall ys n k w, (k + 1 < length ys)%nat -> 0 <= w <= 1 ->
  interp1d (knots_from n ys) (INR (n + k) + w) = Some (part_way (nth k ys 0) (nth (k + 1) ys 0) w).
Proof.
  induction ys as [|y0 ys IH]; intros n k w K W; [cbn in K; lia|].
  destruct ys as [|y1 ys]; [cbn in K; lia|].
  change (knots_from n (y0 :: y1 :: ys))
    with ((INR n, y0) :: (INR (S n), y1) :: knots_from (S (S n)) ys).
  cbn [interp1d]. rewrite S_INR.
  assert (B : INR n <= INR (n + k)) by (apply le_INR; lia).
  destruct (Rlt_dec (INR (n + k) + w) (INR n)) as [X | _]; [lra|].
  destruct k as [|k].
  - rewrite Nat.add_0_r. destruct (Rle_dec (INR n + w) (INR n + 1)) as [_ | X]; [|lra].
    unfold part_way. cbn [nth Nat.add]. f_equal. field. lra.
  - replace (n + S k)%nat with (S n + k)%nat by lia.
    destruct (Rle_dec (INR (S n + k) + w) (INR n + 1)) as [X | X].
    + assert (B2 : INR (S n) <= INR (S n + k)) by (apply le_INR; lia). rewrite S_INR in B2.
      assert (w = 0) by lra. subst w.
      assert (INR (S n + k) = INR (S n)) as Q by (rewrite S_INR; lra). apply INR_eq in Q.
      assert (k = 0%nat) by lia. subst k. rewrite Nat.add_0_r, S_INR.
      unfold part_way. cbn [nth Nat.add]. f_equal. field. lra.
    + specialize (IH (S n) k w ltac:(cbn [length] in *; lia) W).
      cbn [knots_from] in IH. rewrite S_INR in IH. cbn [nth Nat.add]. exact IH.
Qed.

Lemma gray_knots : gray_table
  = knots_from 0 (map (fun y => y * 1e-20) [259; 237; 227; 215; 202; 194; 182; 171; 160]).
Proof.
  unfold gray_table. cbn [knots_from map]. rewrite !S_INR. change (INR 0) with 0.
  do 9 (apply f_equal2; [apply f_equal2; lra|]). reflexivity.
Qed.

Lemma gamma_knots : gamma_table
  = knots_from 0 (map (fun y => y * 1e-16)
      [399; 3030; 6000; 5530; 4310; 3520; 2678; 1810; 943]).
Proof.
  unfold gamma_table. cbn [knots_from map]. rewrite !S_INR. change (INR 0) with 0.
  do 9 (apply f_equal2; [apply f_equal2; lra|]). reflexivity.
Qed.

Lemma nth_scaled : forall ys c k, nth k (map (fun y => y * c) ys) 0 = nth k ys 0 * c.
Proof.
  intros ys c k. replace 0 with (0 * c) at 1 by ring.
  apply (map_nth (fun y => y * c)).
Qed.

Lemma part_scaled : forall a b c w, part_way (a * c) (b * c) w = part_way a b w * c.
Proof. intros. unfold part_way. ring. Qed.

Lemma C39_background_values_aux : forall k w fbar, (k < 8)%nat -> 0 <= w <= 1 ->
  uvb_of (INR k + w) fbar
  = Some (Some (Uvb
      (part_way (published_opacity k) (published_opacity (k + 1)) w * 1e-20)
      (part_way (published_gamma k) (published_gamma (k + 1)) w * 1e-16) fbar)).
Proof.
  intros k w fbar K W.
  assert (KB : INR k <= 7).
  { replace 7 with (INR 7) by (simpl; ring). apply le_INR. lia. }
  unfold uvb_of. destruct (Rlt_dec 8 (INR k + w)) as [X | _]; [lra|].
  rewrite gray_knots, gamma_knots.
  pose proof (interp_knots (map (fun y => y * 1e-16)
      [399; 3030; 6000; 5530; 4310; 3520; 2678; 1810; 943]) 0 k w ltac:(cbn [length map]; lia) W) as A.
  pose proof (interp_knots (map (fun y => y * 1e-20)
      [259; 237; 227; 215; 202; 194; 182; 171; 160]) 0 k w ltac:(cbn [length map]; lia) W) as B.
  rewrite !nth_scaled, part_scaled in A. rewrite !nth_scaled, part_scaled in B.
  change (0 + k)%nat with k in A, B. rewrite A, B. reflexivity.
Qed.
