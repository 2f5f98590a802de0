(** Proofs about the neutral fraction. *)
From Coq Require Import Reals List Bool Arith Lia Lra.
From Verif Require Import NeutralModel NeutralSpec.
From Verif Require RatesProofs.
Import ListNotations.
Local Open Scope R_scope.

Lemma Rpower_pos : forall a b, 0 < Rpower a b.
Proof. intros. unfold Rpower. apply exp_pos. Qed.

Lemma Rdiv_pos : forall a b, 0 < a -> 0 < b -> 0 < a / b.
Proof. intros. unfold Rdiv. apply Rmult_lt_0_compat; auto. apply Rinv_0_lt_compat; auto. Qed.

Lemma div_lt_l : forall a b c, 0 < c -> a < b -> a / c < b / c.
Proof. intros. unfold Rdiv. apply Rmult_lt_compat_r; auto. now apply Rinv_0_lt_compat. Qed.

Lemma div_lt_r : forall a b c, 0 < a -> 0 < b -> b < c -> a / c < a / b.
Proof.
  intros. unfold Rdiv. apply Rmult_lt_compat_l; auto. apply Rinv_lt_contravar; auto.
  apply Rmult_lt_0_compat; lra.
Qed.

(** ** The quadratic *)

Section quadratic.
  Variables alpha lambda : R.
  Hypothesis A0 : 0 < alpha.
  Hypothesis L0 : 0 <= lambda.

  Definition disc (g : R) : R :=
    (2 * alpha + g + lambda) * (2 * alpha + g + lambda) - 4 * (alpha + lambda) * alpha.
  Definition root (g : R) : R :=
    ((2 * alpha + g + lambda) - sqrt (disc g)) / (2 * (alpha + lambda)).
  Definition other (g : R) : R :=
    ((2 * alpha + g + lambda) + sqrt (disc g)) / (2 * (alpha + lambda)).

  Lemma disc_eq : forall g, disc g = (g + lambda) * (g + lambda) + 4 * alpha * g.
  Proof. intros. unfold disc. ring. Qed.

  Lemma disc_sq : forall g, 0 <= g -> sqrt (disc g) * sqrt (disc g) = disc g.
  Proof.
    intros g G. apply sqrt_sqrt. rewrite disc_eq.
    assert (0 <= (g + lambda) * (g + lambda)) by (apply Rle_0_sqr).
    assert (0 <= alpha * g) by (apply Rmult_le_pos; lra). lra.
  Qed.

  Lemma factor : forall g x, 0 <= g ->
    (alpha + lambda) * x * x - (2 * alpha + g + lambda) * x + alpha
    = (alpha + lambda) * (x - root g) * (x - other g).
  Proof.
    intros g x G. pose proof (disc_sq g G) as Q. unfold root, other.
    set (s := sqrt (disc g)) in *. unfold disc in Q.
    assert (E : alpha = ((2 * alpha + g + lambda) * (2 * alpha + g + lambda) - s * s)
                        / (4 * (alpha + lambda))) by (rewrite Q; field; lra).
    set (B := 2 * alpha + g + lambda) in *. set (A := alpha + lambda) in *.
    assert (AP : 0 < A) by (unfold A; lra).
    rewrite E. field. lra.
  Qed.

  Lemma sqrt_lo : forall g, 0 < g -> g + lambda < sqrt (disc g).
  Proof.
    intros g G. rewrite <- (sqrt_square (g + lambda)) by lra. apply sqrt_lt_1.
    - apply Rle_0_sqr.
    - pose proof (disc_eq g). assert (0 <= (g + lambda) * (g + lambda)) by (apply Rle_0_sqr).
      assert (0 <= alpha * g) by (apply Rmult_le_pos; lra). lra.
    - rewrite disc_eq. assert (0 < alpha * g) by (now apply Rmult_lt_0_compat). lra.
  Qed.

  Lemma sqrt_hi : forall g, 0 < g -> sqrt (disc g) < 2 * alpha + g + lambda.
  Proof.
    intros g G. rewrite <- (sqrt_square (2 * alpha + g + lambda)) by lra. apply sqrt_lt_1.
    - rewrite disc_eq. assert (0 <= (g + lambda) * (g + lambda)) by (apply Rle_0_sqr).
      assert (0 <= alpha * g) by (apply Rmult_le_pos; lra). lra.
    - apply Rle_0_sqr.
    - unfold disc. assert (0 < (alpha + lambda) * alpha) by (apply Rmult_lt_0_compat; lra). lra.
  Qed.

  Lemma root_range : forall g, 0 < g -> 0 < root g < alpha / (alpha + lambda).
  Proof.
    intros g G. pose proof (sqrt_lo g G). pose proof (sqrt_hi g G). unfold root. split.
    - apply Rdiv_pos; lra.
    - replace (alpha / (alpha + lambda)) with ((2 * alpha) / (2 * (alpha + lambda))) by (field; lra).
      apply div_lt_l; lra.
  Qed.

  Lemma below_one : alpha / (alpha + lambda) <= 1.
  Proof.
    apply Rmult_le_reg_r with (alpha + lambda); [lra|]. unfold Rdiv.
    rewrite Rmult_assoc, Rinv_l; lra.
  Qed.

  Lemma other_gt1 : forall g, 0 < g -> 1 < other g.
  Proof.
    intros g G. pose proof (sqrt_lo g G). unfold other.
    apply Rmult_lt_reg_r with (2 * (alpha + lambda)); [lra|]. unfold Rdiv.
    rewrite Rmult_assoc, Rinv_l by lra. lra.
  Qed.

  Lemma root_decr : forall g g', 0 < g -> g < g' -> root g' < root g.
  Proof.
    intros g g' G G'. pose proof (root_range g G) as [P Q]. pose proof below_one.
    pose proof (factor g (root g) ltac:(lra)) as F. pose proof (factor g' (root g) ltac:(lra)) as F'.
    replace ((alpha + lambda) * (root g - root g) * (root g - other g)) with 0 in F by ring.
    assert (NEG : (alpha + lambda) * (root g - root g') * (root g - other g') < 0).
    { rewrite <- F'. assert (0 < (g' - g) * root g) by (apply Rmult_lt_0_compat; lra). lra. }
    pose proof (other_gt1 g' ltac:(lra)).
    destruct (Rlt_dec (root g') (root g)) as [L | L]; auto. exfalso.
    assert (0 <= (alpha + lambda) * (root g' - root g) * (other g' - root g)).
    { apply Rmult_le_pos. apply Rmult_le_pos; lra. lra. }
    lra.
  Qed.

  Lemma balance_iff : forall photo nH x, 0 < nH -> 0 < photo ->
    in_balance alpha lambda photo nH x <->
    (alpha + lambda) * x * x - (2 * alpha + photo / nH + lambda) * x + alpha = 0.
  Proof.
    intros photo nH x N P. unfold in_balance.
    assert (E : photo = photo / nH * nH) by (field; lra).
    set (g := photo / nH) in *. rewrite E. split; intros H.
    - assert (Z : nH * nH * ((alpha + lambda) * x * x - (2 * alpha + g + lambda) * x + alpha) = 0).
      { replace (nH * nH * ((alpha + lambda) * x * x - (2 * alpha + g + lambda) * x + alpha))
          with (alpha * ((1 - x) * nH) * ((1 - x) * nH)
                - (g * nH * (x * nH) + lambda * (x * nH) * ((1 - x) * nH))) by ring.
        rewrite H. ring. }
      apply Rmult_integral in Z as [Z | Z]; auto.
      assert (0 < nH * nH) by (now apply Rmult_lt_0_compat). lra.
    - replace (alpha * ((1 - x) * nH) * ((1 - x) * nH))
        with (nH * nH * ((alpha + lambda) * x * x - (2 * alpha + g + lambda) * x + alpha)
              + (g * nH * (x * nH) + lambda * (x * nH) * ((1 - x) * nH))) by ring.
      rewrite H. ring.
  Qed.

  Lemma balance_root : forall photo nH x, 0 < nH -> 0 < photo -> x <= 1 ->
    in_balance alpha lambda photo nH x <-> x = root (photo / nH).
  Proof.
    intros photo nH x N P X. pose proof (Rdiv_pos _ _ P N) as G.
    rewrite balance_iff, factor by (auto; lra). pose proof (other_gt1 _ G). split.
    - intros Z. apply Rmult_integral in Z as [Z | Z]; [|lra].
      apply Rmult_integral in Z as [Z | Z]; lra.
    - intros ->. ring.
  Qed.
End quadratic.

(** ** The rates *)

Lemma recomb_pos : forall t, 0 < recomb_rate t.
Proof.
  intros. unfold recomb_rate. cbv zeta. apply Rdiv_pos; [|apply Rpower_pos].
  apply Rmult_lt_0_compat; [lra | apply Rpower_pos].
Qed.

Lemma collisional_pos : forall t, 0 < collisional_rate t.
Proof.
  intros. unfold collisional_rate. apply Rdiv_pos.
  - apply Rmult_lt_0_compat; [|apply exp_pos]. apply Rmult_lt_0_compat; [lra | apply Rpower_pos].
  - pose proof (sqrt_pos (t / 1e5)). lra.
Qed.

Lemma shield_dens_pos : forall b t, 0 < self_shield_dens b t.
Proof.
  intros. unfold self_shield_dens.
  repeat first [apply Rpower_pos | lra | apply Rmult_lt_0_compat].
Qed.

Definition ratio (u : R) : R :=
  0.98 * Rpower (1 + Rpower u 1.64) (-2.28) + 0.02 * Rpower (1 + u) (-0.84).

Lemma Rpower_incr : forall a b y, 0 < y -> 0 < a < b -> Rpower a y < Rpower b y.
Proof.
  intros a b y Y H. unfold Rpower. apply exp_increasing, Rmult_lt_compat_l; auto.
  apply ln_increasing; lra.
Qed.

Lemma Rpower_decr : forall a b y, y < 0 -> 0 < a < b -> Rpower b y < Rpower a y.
Proof.
  intros a b y Y H. unfold Rpower. apply exp_increasing, Rmult_lt_gt_compat_neg_l; auto.
  apply ln_increasing; lra.
Qed.

Lemma ratio_range : forall u, 0 < u -> 0 < ratio u < 1.
Proof. exact RatesProofs.shield_formula. Qed.

Lemma ratio_decr : forall u v, 0 < u < v -> ratio v < ratio u.
Proof.
  intros u v H. unfold ratio.
  pose proof (Rpower_pos u 1.64).
  pose proof (Rpower_incr u v 1.64 ltac:(lra) H).
  pose proof (Rpower_decr (1 + Rpower u 1.64) (1 + Rpower v 1.64) (-2.28) ltac:(lra) ltac:(lra)).
  pose proof (Rpower_decr (1 + u) (1 + v) (-0.84) ltac:(lra) ltac:(lra)). lra.
Qed.

Lemma photo_rate_eq : forall b nH t,
  photo_rate b nH t = ratio (nH / self_shield_dens b t) * gamma_UVB b.
Proof. reflexivity. Qed.

Lemma photo_range : forall b nH t, 0 < gamma_UVB b -> 0 < nH ->
  0 < photo_rate b nH t < gamma_UVB b.
Proof.
  intros b nH t G N. rewrite photo_rate_eq.
  pose proof (ratio_range _ (Rdiv_pos _ _ N (shield_dens_pos b t))) as [A B]. split.
  - now apply Rmult_lt_0_compat.
  - rewrite <- (Rmult_1_l (gamma_UVB b)) at 2. now apply Rmult_lt_compat_r.
Qed.

Lemma photo_decr_nH : forall b nH nH' t, 0 < gamma_UVB b -> 0 < nH < nH' ->
  photo_rate b nH' t < photo_rate b nH t.
Proof.
  intros b nH nH' t G N. rewrite !photo_rate_eq. apply Rmult_lt_compat_r; auto.
  pose proof (shield_dens_pos b t). apply ratio_decr. split.
  - apply Rdiv_pos; lra.
  - apply div_lt_l; lra.
Qed.

Lemma photo_incr_gamma : forall b b' nH t,
  gray_opac b = gray_opac b' -> f_bar b = f_bar b' ->
  0 < gamma_UVB b < gamma_UVB b' -> 0 < nH ->
  photo_rate b nH t < photo_rate b' nH t.
Proof.
  intros b b' nH t E1 E2 G N. rewrite !photo_rate_eq.
  pose proof (shield_dens_pos b t) as D. pose proof (shield_dens_pos b' t) as D'.
  assert (L : self_shield_dens b t < self_shield_dens b' t).
  { unfold self_shield_dens. rewrite E1, E2. apply Rmult_lt_compat_r; [apply Rpower_pos|].
    apply Rmult_lt_compat_l.
    - repeat first [apply Rpower_pos | lra | apply Rmult_lt_0_compat].
    - apply Rpower_incr; [lra|]. split; [apply Rdiv_pos; lra | apply div_lt_l; lra]. }
  assert (Q : ratio (nH / self_shield_dens b t) < ratio (nH / self_shield_dens b' t)).
  { apply ratio_decr. split. now apply Rdiv_pos. now apply div_lt_r. }
  pose proof (ratio_range _ (Rdiv_pos _ _ N D)).
  apply Rlt_trans with (ratio (nH / self_shield_dens b' t) * gamma_UVB b).
  - apply Rmult_lt_compat_r; lra.
  - apply Rmult_lt_compat_l; lra.
Qed.

Lemma neutral_root : forall b nH t,
  neutral_fraction b nH t
  = root (recomb_rate t) (collisional_rate t) (photo_rate b nH t / nH).
Proof. reflexivity. Qed.

Lemma C39_balance_aux : forall b nH t, 0 < gamma_UVB b -> 0 < nH -> 0 < t ->
  exists photo, 0 < photo < gamma_UVB b /\ photo = photo_rate b nH t /\
  0 < neutral_fraction b nH t < recomb_rate t / (recomb_rate t + collisional_rate t) /\
  recomb_rate t / (recomb_rate t + collisional_rate t) < 1 /\
  (forall x, x <= 1 ->
     (in_balance (recomb_rate t) (collisional_rate t) photo nH x <->
      x = neutral_fraction b nH t)).
Proof.
  intros b nH t G N T. exists (photo_rate b nH t).
  pose proof (recomb_pos t). pose proof (collisional_pos t) as C.
  pose proof (photo_range b nH t G N) as P.
  split; auto. split; auto. split; [|split].
  - rewrite neutral_root. apply root_range; try lra. apply Rdiv_pos; lra.
  - apply Rmult_lt_reg_r with (recomb_rate t + collisional_rate t); [lra|]. unfold Rdiv.
    rewrite Rmult_assoc, Rinv_l; lra.
  - intros x X. rewrite neutral_root. apply balance_root; auto; lra.
Qed.

Lemma C39_density_aux : forall b nH nH' t, 0 < gamma_UVB b -> 0 < nH < nH' ->
  photo_rate b nH' t < photo_rate b nH t /\
  neutral_fraction b nH t < neutral_fraction b nH' t.
Proof.
  intros b nH nH' t G N. split. now apply photo_decr_nH.
  pose proof (collisional_pos t). rewrite !neutral_root. apply root_decr.
  - apply recomb_pos.
  - lra.
  - apply Rdiv_pos; [apply photo_range|]; lra.
  - pose proof (photo_decr_nH b nH nH' t G N).
    pose proof (photo_range b nH' t G ltac:(lra)).
    apply Rlt_trans with (photo_rate b nH t / nH').
    + apply div_lt_l; lra.
    + apply div_lt_r; lra.
Qed.

Lemma C39_background_aux : forall b b' nH t,
  gray_opac b = gray_opac b' -> f_bar b = f_bar b' ->
  0 < gamma_UVB b < gamma_UVB b' -> 0 < nH ->
  neutral_fraction b' nH t < neutral_fraction b nH t.
Proof.
  intros b b' nH t E1 E2 G N. pose proof (collisional_pos t). rewrite !neutral_root.
  apply root_decr.
  - apply recomb_pos.
  - lra.
  - apply Rdiv_pos; [apply photo_range|]; lra.
  - apply div_lt_l; auto. apply photo_incr_gamma; auto.
Qed.

(** ** The tables *)

Lemma interp_pos : forall knots x y,
  Forall (fun k => 0 < snd k) knots -> interp1d knots x = Some y -> 0 < y.
Proof.
  induction knots as [|[x0 y0] knots IH]; intros x y F H; [discriminate|].
  destruct knots as [|[x1 y1] rest]; [discriminate|]. cbn [interp1d] in H.
  destruct (Rlt_dec x x0) as [L | L]; [discriminate|].
  inversion F as [|? ? P0 F']; subst. inversion F' as [|? ? P1 F'']; subst. cbn [snd] in *.
  destruct (Rle_dec x x1) as [L1 | L1].
  - injection H as <-. destruct (Req_dec x0 x1) as [-> | NE].
    + assert (x = x1) by lra. subst x.
      replace (x1 - x1) with 0 by ring. unfold Rdiv. rewrite Rmult_0_r, Rmult_0_l. lra.
    + assert (0 < x1 - x0) by lra.
      set (w := (x - x0) / (x1 - x0)).
      assert (W : 0 <= w <= 1).
      { unfold w. split. apply Rmult_le_pos; [lra|]. left. now apply Rinv_0_lt_compat.
        apply Rmult_le_reg_r with (x1 - x0); auto. unfold Rdiv. rewrite Rmult_assoc, Rinv_l; lra. }
      replace (y0 + (y1 - y0) * (x - x0) / (x1 - x0)) with (y0 * (1 - w) + y1 * w)
        by (unfold w; field; lra).
      destruct (Req_dec w 0) as [Z | Z].
      * rewrite Z. lra.
      * assert (0 < y1 * w) by (apply Rmult_lt_0_compat; lra).
        assert (0 <= y0 * (1 - w)) by (apply Rmult_le_pos; lra). lra.
  - eapply IH; eauto.
Qed.

Lemma table_total : forall T, (exists a b c d e f g h i,
    T = [(0, a); (1, b); (2, c); (3, d); (4, e); (5, f); (6, g); (7, h); (8, i)]) ->
  forall z, (exists y, interp1d T z = Some y) <-> 0 <= z <= 8.
Proof.
  intros T (a & b & c & d & e & f & g & h & i & ->) z. cbn [interp1d].
  repeat match goal with
  | |- context [Rlt_dec ?u ?v] => destruct (Rlt_dec u v)
  | |- context [Rle_dec ?u ?v] => destruct (Rle_dec u v)
  end; split; try (intros [y Y]; discriminate); try (intros _; lra);
  try (intros _; eexists; reflexivity); try (intros; lra).
Qed.

Lemma uvb_of_range : forall z fbar b, uvb_of z fbar = Some (Some b) ->
  0 < gamma_UVB b /\ 0 < gray_opac b.
Proof.
  intros z fbar b H. unfold uvb_of in H. destruct (Rlt_dec 8 z); [discriminate|].
  destruct (interp1d gamma_table z) as [ga|] eqn:A; [|discriminate].
  destruct (interp1d gray_table z) as [gr|] eqn:B; [|discriminate].
  injection H as <-. cbn [gamma_UVB gray_opac].
  apply interp_pos in A; [|repeat constructor; cbn [snd]; lra].
  apply interp_pos in B; [|repeat constructor; cbn [snd]; lra]. auto.
Qed.

Lemma C39_tables_aux : forall z fbar,
  (z < 0 -> uvb_of z fbar = None) /\
  (8 < z -> uvb_of z fbar = Some None) /\
  (0 <= z <= 8 -> exists b, uvb_of z fbar = Some (Some b) /\
      0 < gamma_UVB b /\ 0 < gray_opac b /\ f_bar b = fbar).
Proof.
  intros z fbar.
  assert (G : (exists y, interp1d gamma_table z = Some y) <-> 0 <= z <= 8)
    by (apply table_total; unfold gamma_table; repeat eexists).
  assert (Y : (exists y, interp1d gray_table z = Some y) <-> 0 <= z <= 8)
    by (apply table_total; unfold gray_table; repeat eexists).
  split; [|split].
  - intros Z. unfold uvb_of. destruct (Rlt_dec 8 z); [lra|].
    destruct (interp1d gamma_table z); auto. exfalso.
    assert (0 <= z <= 8) by (apply G; eauto). lra.
  - intros Z. unfold uvb_of. destruct (Rlt_dec 8 z); [auto|lra].
  - intros Z. destruct (proj2 G Z) as [ga A]. destruct (proj2 Y Z) as [gr B].
    exists (Uvb gr ga fbar).
    assert (E : uvb_of z fbar = Some (Some (Uvb gr ga fbar))).
    { unfold uvb_of. destruct (Rlt_dec 8 z); [lra|]. now rewrite A, B. }
    split; auto. destruct (uvb_of_range _ _ _ E). auto.
Qed.

(** ** Star forming gas *)

Lemma combine_nth_err : forall (a b : list R) i x y, length a = length b ->
  nth_error a i = Some x -> nth_error b i = Some y -> nth_error (combine a b) i = Some (x, y).
Proof.
  induction a as [|p a IH]; intros [|q b] [|i] x y L A B; cbn in *; try discriminate.
  - injection A as <-. injection B as <-. reflexivity.
  - apply IH; auto.
Qed.

Lemma C39_starforming_aux : forall g densities codes i d c,
  0 < conv g -> 0 < thresh g ->
  (forall b, bg g = Some b -> 0 < gamma_UVB b) ->
  length densities = length codes ->
  nth_error densities i = Some d -> nth_error codes i = Some c ->
  exists f, nth_error (get_reproc_HI g densities codes) i = Some f /\
    (0 <= c <= 1 -> 0 <= f <= 1) /\
    (sf_neutral g = false \/ 0.76 * (d * conv g) <= thresh g -> f = c) /\
    (sf_neutral g = true -> thresh g < 0.76 * (d * conv g) ->
       match bg g with
       | None => f = 1
       | Some b => f = neutral_fraction b (d * conv g) 1e4
       end).
Proof.
  intros g densities codes i d c CV TH BG L D C. unfold get_reproc_HI.
  destruct (sf_neutral g) eqn:SF.
  - exists (reproc1 g d c). split.
    { erewrite map_nth_error; [|eapply combine_nth_err; eauto]. reflexivity. }
    assert (E : thresh g / 0.76 / conv g < d <-> thresh g < 0.76 * (d * conv g)).
    { split; intros H.
      - apply Rmult_lt_compat_r with (r := 0.76 * conv g) in H; [|lra].
        replace (thresh g / 0.76 / conv g * (0.76 * conv g)) with (thresh g) in H by (field; lra). lra.
      - apply Rmult_lt_reg_r with (0.76 * conv g); [lra|].
        replace (thresh g / 0.76 / conv g * (0.76 * conv g)) with (thresh g) by (field; lra). lra. }
    unfold reproc1. destruct (Rlt_dec (thresh g / 0.76 / conv g) d) as [H | H].
    + pose proof (proj1 E H) as H'. split; [|split].
      * intros _. destruct (bg g) as [b|] eqn:B; [|lra].
        assert (0 < d * conv g) by lra.
        destruct (C39_balance_aux b (d * conv g) 1e4 (BG b eq_refl) ltac:(lra) ltac:(lra))
          as (p & _ & _ & [Q1 Q2] & Q3 & _). lra.
      * intros [X | X]; [discriminate | lra].
      * intros _ _. destruct (bg g); auto.
    + split; [auto|]. split; [auto|]. intros _ X. exfalso. apply H, E, X.
  - exists c. repeat split; auto; try lra; intros; discriminate.
Qed.

(** The fraction is evaluated at the density of all gas where the formula
    wants the hydrogen density, so it is larger than at the latter. *)
Lemma C39_hydrogen_density_aux : forall g b densities codes i d c,
  0 < conv g -> 0 < thresh g -> bg g = Some b -> 0 < gamma_UVB b ->
  sf_neutral g = true -> length densities = length codes ->
  nth_error densities i = Some d -> nth_error codes i = Some c ->
  thresh g < 0.76 * (d * conv g) ->
  exists f, nth_error (get_reproc_HI g densities codes) i = Some f /\
    neutral_fraction b (0.76 * (d * conv g)) 1e4 < f.
Proof.
  intros g b densities codes i d c CV TH BG G SF L D C H.
  destruct (C39_starforming_aux g densities codes i d c CV TH) as (f & E & _ & _ & F); auto.
  { intros b' E. rewrite BG in E. injection E as <-. auto. }
  specialize (F SF H). rewrite BG in F. exists f. split; auto. rewrite F.
  apply C39_density_aux; auto. lra.
Qed.
