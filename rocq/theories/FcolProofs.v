(** Proofs about the column density of a particle in floating point: rounding of lengths. *)
From Coq Require Import ZArith List Bool Lia Lra Reals Psatz.
From Flocq Require Import Core.Raux.
From Verif Require Import FloatModel FloatSpec FloatProofs FloatProofs3 FsearchModel FsearchProofs FsearchProofs2 FcolModel FcolSpec.
Import ListNotations.
Local Open Scope R_scope.

Lemma rel64 : forall x, / 2 ^ 200 <= x -> exists e, Rabs e <= / 4503599627370496 /\ s64 x = x * (1 + e).
Proof.
  intros x H. assert (P : 0 < / 2 ^ 200) by (apply Rinv_0_lt_compat, pow_lt; lra).
  exists ((s64 x - x) / x). split.
  - unfold Rdiv. rewrite Rabs_mult, (Rabs_pos_eq (/ x)) by (left; apply Rinv_0_lt_compat; lra).
    apply Rmult_le_reg_r with x; [lra|]. rewrite Rmult_assoc, Rinv_l, Rmult_1_r by lra.
    pose proof (rerr Double x) as R. rewrite unit_double, (Rabs_pos_eq x) in R by lra. unfold s64.
    assert (T : tiny_half Double <= x * / 9007199254740992).
    { unfold tiny_half. apply Rle_trans with (/ 2 ^ 253).
      - apply Rinv_le_contravar; [apply pow_lt; lra|]. apply Rle_pow; [lra|lia].
      - replace 253%nat with (200 + 53)%nat by reflexivity. rewrite pow_add, Rinv_mult.
        replace (2 ^ 53) with 9007199254740992 by (cbv [pow]; lra). apply Rmult_le_compat_r; lra. }
    clear - R T H P. lra.
  - field. lra.
Qed.

Lemma prod2 : forall a b x y, Rabs a <= x -> Rabs b <= y -> Rabs ((1 + a) * (1 + b) - 1) <= x + y + x * y.
Proof.
  intros a b x y A B. replace ((1 + a) * (1 + b) - 1) with (a + b + a * b) by ring.
  eapply Rle_trans; [apply Rabs_triang|]. rewrite Rabs_mult. pose proof (Rabs_triang a b). pose proof (Rabs_pos a). pose proof (Rabs_pos b). nra.
Qed.

Lemma half_rel : forall x e c, Rabs e <= / 4503599627370496 -> 0 < c -> 2 * c <= x -> c <= x * (1 + e).
Proof. intros x e c E C X. apply abs_bounds in E. nra. Qed.

Lemma pinv : forall k, 0 < / 2 ^ k.
Proof. intros k. apply Rinv_0_lt_compat, pow_lt. lra. Qed.

Lemma pinv_S : forall k, 2 * / 2 ^ S k = / 2 ^ k.
Proof. intros k. cbn [pow]. pose proof (pow_lt 2 k ltac:(lra)). field. lra. Qed.

Lemma pinv_add : forall a b, / 2 ^ (a + b) = / 2 ^ a * / 2 ^ b.
Proof. intros a b. rewrite pow_add, Rinv_mult. reflexivity. Qed.

Lemma pinv_le : forall a b, (a <= b)%nat -> / 2 ^ b <= / 2 ^ a.
Proof. intros a b H. apply Rinv_le_contravar; [apply pow_lt; lra|]. apply Rle_pow; [lra|exact H]. Qed.

(** The length of a pixel. *)
Lemma dx_near : forall L v n, sizes L v n -> Rabs (boxtokpc L v (Z.of_nat n) - L / INR n) <= L / INR n / 1125899906842624.
Proof.
  intros L v n ((L1 & L2) & (V1 & V2) & N1 & N2). unfold boxtokpc. rewrite <- INR_IZR_INZ.
  pose proof (pinv 40) as P40.
  assert (NP : 1 <= INR n) by (apply (le_INR 1); exact N1).
  assert (NQ : INR n <= 2 ^ 20) by (apply le_INR in N2; rewrite pow_INR in N2; replace (INR 2) with 2 in N2 by (cbn; lra); exact N2).
  assert (IN : / 2 ^ 20 <= / INR n) by (apply Rinv_le_contravar; lra).
  assert (IV : / 2 ^ 40 <= / v) by (apply Rinv_le_contravar; lra).
  assert (Q1 : 2 * / 2 ^ 81 <= L * v).
  { rewrite (pinv_S 80). change 80%nat with (40 + 40)%nat. rewrite pinv_add. apply Rmult_le_compat; lra. }
  destruct (rel64 (L * v)) as (e1 & E1 & ->).
  { pose proof (pinv_le 80 200 ltac:(lia)). rewrite (pinv_S 80) in Q1. lra. }
  pose proof (half_rel _ _ _ E1 (pinv 81) Q1) as H1.
  assert (Q2 : 2 * / 2 ^ 102 <= L * v * (1 + e1) / INR n).
  { rewrite (pinv_S 101). change 101%nat with (81 + 20)%nat. rewrite pinv_add. pose proof (pinv 81). pose proof (pinv 20).
    unfold Rdiv. apply Rmult_le_compat; lra. }
  destruct (rel64 (L * v * (1 + e1) / INR n)) as (e2 & E2 & ->).
  { pose proof (pinv_le 101 200 ltac:(lia)). rewrite (pinv_S 101) in Q2. lra. }
  pose proof (half_rel _ _ _ E2 (pinv 102) Q2) as H2.
  destruct (rel64 (L * v * (1 + e1) / INR n * (1 + e2) / v)) as (e3 & E3 & ->).
  { apply Rle_trans with (/ 2 ^ 142); [apply pinv_le; lia|]. change 142%nat with (102 + 40)%nat. rewrite pinv_add.
    pose proof (pinv 102). unfold Rdiv at 1. apply Rmult_le_compat; lra. }
  replace (L * v * (1 + e1) / INR n * (1 + e2) / v * (1 + e3) - L / INR n)
    with (L / INR n * ((1 + ((1 + e1) * (1 + e2) - 1)) * (1 + e3) - 1)) by (field; lra).
  rewrite Rabs_mult, Rabs_pos_eq by (apply Rmult_le_pos; [lra|left; apply Rinv_0_lt_compat; lra]).
  unfold Rdiv at 2. apply Rmult_le_compat_l; [apply Rmult_le_pos; [lra|left; apply Rinv_0_lt_compat; lra]|].
  eapply Rle_trans; [apply prod2; [apply prod2; [exact E1|exact E2]|exact E3]|]. lra.
Qed.

Lemma sqrt_near : forall a b e, 0 <= a -> 0 <= b -> 0 <= e -> Rabs (a - b) <= e * e -> Rabs (sqrt a - sqrt b) <= e.
Proof.
  enough (H : forall a b e, 0 <= a -> 0 <= b -> 0 <= e -> a - b <= e * e -> sqrt a - sqrt b <= e).
  { intros a b e A B E D. apply abs_bounds in D. apply Rabs_le. pose proof (H a b e A B E ltac:(lra)). pose proof (H b a e B A E ltac:(lra)). lra. }
  intros a b e A B E D. pose proof (sqrt_pos b). enough (sqrt a <= sqrt b + e) by lra.
  rewrite <- (sqrt_square (sqrt b + e)) by lra. apply sqrt_le_1_alt. pose proof (sqrt_sqrt b B). nra.
Qed.

(** What the loop takes for the half chord, when there is any. *)
Lemma zrange_near : forall h dr2, / 2 ^ 40 <= h -> 0 <= dr2 -> 0 < s64 (s32 (h * h) - dr2) ->
  let zr := s64 (sqrt (s64 (s32 (h * h) - dr2))) in
  0 <= zr /\ zr <= h + h / 8388608 /\ Rabs (zr - half_chord h dr2) <= h / 4096 + h / 4194304.
Proof.
  intros h dr2 H D P zr. pose proof (box_pos h H) as HP.
  assert (HH : Rabs (h * h) <= h * h) by (rewrite Rabs_pos_eq; nra).
  pose proof (abs_bounds _ _ (area32 h _ _ H HH)) as E0. set (d0 := s32 (h * h)) in *. clearbody d0.
  assert (GE : 0 < d0 - dr2).
  { destruct (Rlt_dec 0 (d0 - dr2)) as [|N]; [assumption|]. exfalso. assert (0 <= - (d0 - dr2)) as N' by lra.
    apply (rnd_nonneg Double) in N'. rewrite rnd_opp in N'. unfold s64 in P. lra. }
  assert (SQ : 0 < h * h) by nra.
  assert (B1 : Rabs (d0 - dr2) <= d0) by (apply Rabs_le; lra).
  pose proof (abs_bounds _ _ (area64 h _ _ H B1)) as E1. set (d := s64 (d0 - dr2)) in *. clearbody d.
  assert (HD : d <= h * h * (1 + / 8388608)) by (set (q := h * h) in *; clearbody q; lra).
  assert (SD : sqrt d <= h + h / 16777216).
  { rewrite <- (sqrt_square (h + h / 16777216)) by lra. apply sqrt_le_1_alt. eapply Rle_trans; [exact HD|].
    replace ((h + h / 16777216) * (h + h / 16777216)) with (h * h * (1 + / 8388608 + / 281474976710656)) by (field; lra).
    apply Rmult_le_compat_l; lra. }
  pose proof (sqrt_pos d) as SP.
  assert (B2 : Rabs (sqrt d) <= h + h / 16777216) by (rewrite Rabs_pos_eq; lra).
  pose proof (abs_bounds _ _ (len64 h _ _ H B2)) as E2. unfold zr. clear zr.
  assert (ZP : 0 <= s64 (sqrt d)) by (apply rnd_nonneg; exact SP).
  set (zr := s64 (sqrt d)) in *. clearbody zr. split; [exact ZP|]. split; [lra|].
  assert (N : Rabs (sqrt d - sqrt (Rmax 0 (h * h - dr2))) <= h / 4096 + h / 8388608).
  { apply sqrt_near; [lra|apply Rmax_l|lra|].
    replace ((h / 4096 + h / 8388608) * (h / 4096 + h / 8388608)) with (h * h * (/ 16777216 + 2 * / 34359738368 + / 70368744177664)) by (field; lra).
    unfold Rmax. destruct (Rle_dec 0 (h * h - dr2)); apply Rabs_le; set (q := h * h) in *; clearbody q; lra. }
  apply abs_bounds in N. unfold half_chord. set (y := sqrt (Rmax 0 (h * h - dr2))) in *. clearbody y. apply Rabs_le. lra.
Qed.

(** Nothing is added although there is something: little. *)
Lemma skip_near : forall h dr2, / 2 ^ 40 <= h -> 0 <= dr2 -> s64 (s32 (h * h) - dr2) <= 0 -> half_chord h dr2 <= h / 4096 + h / 8388608.
Proof.
  intros h dr2 H D P. pose proof (box_pos h H) as HP.
  assert (HH : Rabs (h * h) <= h * h) by (rewrite Rabs_pos_eq; nra).
  pose proof (abs_bounds _ _ (area32 h _ _ H HH)) as E0.
  assert (F : s32 (h * h) - dr2 <= h * h / 1152921504606846976).
  { destruct (Rle_dec (s32 (h * h) - dr2) (h * h / 1152921504606846976)) as [|N]; [assumption|exfalso].
    assert (X : 0 <= s32 (h * h) - dr2) by nra.
    pose proof (rnd_any Double _ X) as (R1 & _). fold (s64 (s32 (h * h) - dr2)) in R1. rewrite unit_double in R1.
    assert (T : tiny_half Double <= h * h / 1152921504606846976 / 2).
    { rewrite <- p60. apply Rle_trans with (/ 2 ^ 141).
      - unfold tiny_half. apply Rinv_le_contravar; [apply pow_lt; lra|]. apply Rle_pow; [lra|lia].
      - change 141%nat with ((40 + 40) + (60 + 1))%nat. rewrite !pinv_add. pose proof (pinv 40). pose proof (pinv 60).
        replace (h * h / 2 ^ 60 / 2) with (h * h * (/ 2 ^ 60 * / 2 ^ 1)) by (cbn [pow]; field; apply pow_nonzero; lra).
        apply Rmult_le_compat_r; [apply Rmult_le_pos; left; apply pinv|]. apply Rmult_le_compat; lra. }
    set (y := s32 (h * h) - dr2) in *. clearbody y. set (q := h * h) in *. clearbody q. lra. }
  unfold half_chord. rewrite <- (sqrt_square (h / 4096 + h / 8388608)) by lra. apply sqrt_le_1_alt.
  replace ((h / 4096 + h / 8388608) * (h / 4096 + h / 8388608)) with (h * h * (/ 16777216 + 2 * / 34359738368 + / 70368744177664)) by (field; lra).
  apply Rmax_lub; [nra|]. assert (0 < h * h) by nra. set (q := h * h) in *. set (y := s32 q) in *. clearbody y. clearbody q. lra.
Qed.
