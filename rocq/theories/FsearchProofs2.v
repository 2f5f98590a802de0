(** Proofs about the particle search in floating point: rounding errors against exact distances. *)
From Coq Require Import ZArith List Bool Lia Lra Reals Psatz.
From Verif Require Import FloatModel FloatSpec FloatProofs FloatProofs3 FsearchModel FsearchSpec FsearchProofs.
Import ListNotations.
Local Open Scope R_scope.

(** ** Rounding errors *)

Lemma rerr : forall p x, Rabs (rnd p x - x) <= unit p * Rabs x + tiny_half p.
Proof.
  intros p x. destruct (Rle_dec 0 x) as [P|N].
  - pose proof (rnd_any p x P). rewrite (Rabs_pos_eq x) by lra. apply Rabs_le. lra.
  - assert (P : 0 <= - x) by lra. pose proof (rnd_any p (- x) P) as H. rewrite rnd_opp in H.
    rewrite (Rabs_left x) by lra. apply Rabs_le. lra.
Qed.

Lemma tiny_small : forall p, tiny_half p <= / 2 ^ 150.
Proof.
  intros [|]; unfold tiny_half; [lra|]. apply Rinv_le_contravar; [apply pow_lt; lra|]. apply Rle_pow; [lra|lia].
Qed.

Lemma unit_single : unit Single = / 16777216.
Proof. unfold unit. f_equal. simpl. lra. Qed.

Lemma unit_double : unit Double = / 9007199254740992.
Proof. unfold unit. f_equal. simpl. lra. Qed.

Lemma p60 : 2 ^ 60 = 1152921504606846976.
Proof. simpl. lra. Qed.

Lemma tiny_len : forall p L, / 2 ^ 40 <= L -> tiny_half p <= L / 1152921504606846976.
Proof.
  intros p L H. rewrite <- p60. eapply Rle_trans; [apply tiny_small|].
  apply Rle_trans with (/ 2 ^ 100).
  - apply Rinv_le_contravar; [apply pow_lt; lra|]. apply Rle_pow; [lra|lia].
  - replace 100%nat with (40 + 60)%nat by reflexivity. rewrite pow_add, Rinv_mult. unfold Rdiv.
    apply Rmult_le_compat_r; [|exact H]. left. apply Rinv_0_lt_compat, pow_lt. lra.
Qed.

Lemma tiny_area : forall p L, / 2 ^ 40 <= L -> tiny_half p <= L * L / 1152921504606846976.
Proof.
  intros p L H. rewrite <- p60. eapply Rle_trans; [apply tiny_small|].
  apply Rle_trans with (/ 2 ^ 140).
  - apply Rinv_le_contravar; [apply pow_lt; lra|]. apply Rle_pow; [lra|lia].
  - replace 140%nat with ((40 + 40) + 60)%nat by reflexivity. rewrite !pow_add, !Rinv_mult. unfold Rdiv.
    assert (0 < / 2 ^ 40) by (apply Rinv_0_lt_compat, pow_lt; lra).
    apply Rmult_le_compat_r; [left; apply Rinv_0_lt_compat, pow_lt; lra|]. apply Rmult_le_compat; lra.
Qed.

Lemma box_pos : forall L, / 2 ^ 40 <= L -> 0 < L.
Proof. intros L H. assert (0 < / 2 ^ 40) by (apply Rinv_0_lt_compat, pow_lt; lra). lra. Qed.

Lemma len32 : forall L x B, / 2 ^ 40 <= L -> Rabs x <= B -> Rabs (s32 x - x) <= B / 16777216 + L / 1152921504606846976.
Proof.
  intros L x B H X. unfold s32. pose proof (rerr Single x) as R. rewrite unit_single in R. pose proof (tiny_len Single L H). lra.
Qed.

Lemma len64 : forall L x B, / 2 ^ 40 <= L -> Rabs x <= B -> Rabs (s64 x - x) <= B / 9007199254740992 + L / 1152921504606846976.
Proof.
  intros L x B H X. unfold s64. pose proof (rerr Double x) as R. rewrite unit_double in R. pose proof (tiny_len Double L H). lra.
Qed.

Lemma area32 : forall L x B, / 2 ^ 40 <= L -> Rabs x <= B -> Rabs (s32 x - x) <= B / 16777216 + L * L / 1152921504606846976.
Proof.
  intros L x B H X. unfold s32. pose proof (rerr Single x) as R. rewrite unit_single in R. pose proof (tiny_area Single L H). lra.
Qed.

Lemma area64 : forall L x B, / 2 ^ 40 <= L -> Rabs x <= B -> Rabs (s64 x - x) <= B / 9007199254740992 + L * L / 1152921504606846976.
Proof.
  intros L x B H X. unfold s64. pose proof (rerr Double x) as R. rewrite unit_double in R. pose proof (tiny_area Double L H). lra.
Qed.

Lemma abs_bounds : forall x e, Rabs x <= e -> - e <= x <= e.
Proof. intros x e H. unfold Rabs in H. destruct (Rcase_abs x); lra. Qed.

(** ** The window *)

(** The exact distance in one direction. *)
Definition fd (L a b : R) : R := Rmin (Rabs (a - b)) (L - Rabs (a - b)).

Lemma fd_cases : forall L a b, inside L a -> inside L b ->
  0 <= fd L a b /\ fd L a b <= L / 2 /\
  ((fd L a b = a - b /\ b <= a) \/ (fd L a b = b - a /\ a <= b) \/ (fd L a b = L - (a - b) /\ b <= a) \/ (fd L a b = L - (b - a) /\ a <= b)).
Proof.
  unfold inside, fd. intros L a b A B. unfold Rmin, Rabs. destruct (Rcase_abs (a - b)); destruct (Rle_dec _ _); lra.
Qed.

Lemma upper_near : forall L first h, / 2 ^ 40 <= L -> inside L first -> 0 < h -> 2 * h <= L ->
  - (L / 8388608) <= s32 (first + h) - (first + h) <= L / 8388608 /\
  - (L / 8388608) <= s32 (s64 (s32 (first + h) - L)) - (s32 (first + h) - L) <= L / 8388608 /\
  - (L / 8388608) <= s64 (s32 (first + h) - L) - (s32 (first + h) - L) <= L / 8388608.
Proof.
  intros L first h H I P Q. pose proof (box_pos L H) as LP. unfold inside in I.
  assert (A : Rabs (first + h) <= 3 * L / 2) by (apply Rabs_le; lra).
  pose proof (abs_bounds _ _ (len32 L _ _ H A)) as E0. set (x := s32 (first + h)) in *. clearbody x.
  assert (B : Rabs (x - L) <= 9 * L / 8) by (apply Rabs_le; lra).
  pose proof (abs_bounds _ _ (len64 L _ _ H B)) as E1. set (y := s64 (x - L)) in *. clearbody y.
  assert (C : Rabs y <= 10 * L / 8) by (apply Rabs_le; lra).
  pose proof (abs_bounds _ _ (len32 L _ _ H C)) as E2. lra.
Qed.

Lemma lower_near : forall L first h, / 2 ^ 40 <= L -> inside L first -> 0 < h -> 2 * h <= L ->
  - (L / 8388608) <= s32 (first - h) - (first - h) <= L / 8388608 /\
  (s32 (first - h) < 0 -> - (L / 8388608) <= s32 (s64 (s32 (first - h) + L)) - (s32 (first - h) + L) <= L / 8388608) /\
  (s32 (first - h) < 0 -> - (L / 8388608) <= s64 (s32 (first - h) + L) - (s32 (first - h) + L) <= L / 8388608).
Proof.
  intros L first h H I P Q. pose proof (box_pos L H) as LP. unfold inside in I.
  assert (A : Rabs (first - h) <= L) by (apply Rabs_le; lra).
  pose proof (abs_bounds _ _ (len32 L _ _ H A)) as E0. set (x := s32 (first - h)) in *. clearbody x.
  split; [lra|]. enough (G : x < 0 -> - (L / 8388608) <= s32 (s64 (x + L)) - (x + L) <= L / 8388608 /\ - (L / 8388608) <= s64 (x + L) - (x + L) <= L / 8388608)
    by (split; intros N; apply (G N)).
  intros N. assert (B : Rabs (x + L) <= L) by (apply Rabs_le; lra).
  pose proof (abs_bounds _ _ (len64 L _ _ H B)) as E1. set (y := s64 (x + L)) in *. clearbody y.
  assert (C : Rabs y <= 10 * L / 8) by (apply Rabs_le; lra).
  pose proof (abs_bounds _ _ (len32 L _ _ H C)) as E2. lra.
Qed.

Lemma window_complete : forall L h first key, / 2 ^ 40 <= L -> 0 < h -> 2 * h + L / 1048576 <= L ->
  inside L first -> inside L key -> fd L first key <= h - L / 2097152 -> in_window L h first key.
Proof.
  intros L h first key H P Q I K D. pose proof (box_pos L H) as LP.
  destruct (upper_near L first h H I P ltac:(lra)) as (U0 & U1 & _).
  destruct (lower_near L first h H I P ltac:(lra)) as (V0 & V1 & _).
  destruct (fd_cases L first key I K) as (F0 & _ & F). unfold inside in I, K. unfold in_window. cbv zeta.
  set (x := s32 (first + h)) in *. clearbody x. set (x' := s32 (s64 (x - L))) in *. clearbody x'.
  set (y := s32 (first - h)) in *. clearbody y. set (y' := s32 (s64 (y + L))) in *. clearbody y'.
  set (f := fd L first key) in *. clearbody f.
  destruct (ltb_spec L x); destruct (ltb_spec y 0); try specialize (V1 ltac:(lra));
  match goal with |- context [if leb ?a ?b then _ else _] => destruct (leb_spec a b) end;
  destruct F as [(E & O)|[(E & O)|[(E & O)|(E & O)]]]; lra.
Qed.

Lemma second_complete : forall L h second key, / 2 ^ 40 <= L -> 0 < h -> 2 * h + L / 1048576 <= L ->
  inside L second -> inside L key -> fd L second key <= h - L / 2097152 -> second_close L second key h = true.
Proof.
  intros L h second key H P Q I K D. pose proof (box_pos L H) as LP.
  destruct (upper_near L second h H I P ltac:(lra)) as (U0 & _ & U1).
  destruct (lower_near L second h H I P ltac:(lra)) as (V0 & _ & V1).
  destruct (fd_cases L second key I K) as (F0 & _ & F). unfold inside in I, K. unfold second_close. cbv zeta.
  set (x := s32 (second + h)) in *. clearbody x. set (x' := s64 (x - L)) in *. clearbody x'.
  set (y := s32 (second - h)) in *. clearbody y. set (y' := s64 (y + L)) in *. clearbody y'.
  set (f := fd L second key) in *. clearbody f.
  destruct (ltb_spec y 0); [specialize (V1 ltac:(lra))|clear V1];
  destruct (ltb_spec L x); destruct (ltb_spec key x'); destruct (ltb_spec y' key); destruct (ltb_spec y key); destruct (ltb_spec key x); cbn [andb]; auto;
  exfalso; destruct F as [(E & O)|[(E & O)|[(E & O)|(E & O)]]]; lra.
Qed.

(** ** The distance *)

Lemma fold_near : forall L a b, / 2 ^ 40 <= L -> inside L a -> inside L b ->
  - (L / 562949953421312) <= fold_dist L (s64 (a - b)) - fd L a b <= L / 562949953421312.
Proof.
  intros L a b H A B. pose proof (box_pos L H) as LP.
  assert (X : Rabs (a - b) <= L) by (unfold inside in *; apply Rabs_le; lra).
  pose proof (abs_bounds _ _ (len64 L _ _ H X)) as E0. unfold fold_dist. cbv zeta.
  set (x := s64 (a - b)) in *. clearbody x.
  assert (Hh : Rabs (/ 2 * L) <= L) by (apply Rabs_le; lra).
  pose proof (abs_bounds _ _ (len64 L _ _ H Hh)) as E1. set (half := s64 (/ 2 * L)) in *. clearbody half.
  assert (Y : Rabs (L - Rabs x) <= 2 * L).
  { unfold inside in *. apply Rabs_le. unfold Rabs. destruct (Rcase_abs x); lra. }
  pose proof (abs_bounds _ _ (len64 L _ _ H Y)) as E2. set (y := s64 (L - Rabs x)) in *. clearbody y.
  unfold inside in *. unfold fd, Rmin.
  destruct (ltb_spec half (Rabs x)); destruct (Rle_dec _ _); unfold Rabs in *; destruct (Rcase_abs x); destruct (Rcase_abs (a - b)); lra.
Qed.

Lemma fold_range : forall L a b, / 2 ^ 40 <= L -> inside L a -> inside L b -> - L <= fold_dist L (s64 (a - b)) <= L.
Proof.
  intros L a b H A B. pose proof (box_pos L H) as LP. pose proof (fold_near L a b H A B).
  destruct (fd_cases L a b A B) as (F0 & F1 & _). lra.
Qed.

Lemma square_near : forall L x y e, 0 < L -> 0 <= e <= L / 2 -> 0 <= y <= L / 2 -> - e <= x - y <= e -> 
  - (3 * e * L / 2) <= x * x - y * y <= 3 * e * L / 2.
Proof. intros L x y e LP E Y D. set (z := x - y) in *. replace x with (y + z) by (unfold z; lra). clearbody z. split; nra. Qed.

Lemma calc_near : forall L a b c d, / 2 ^ 40 <= L -> inside L a -> inside L b -> inside L c -> inside L d ->
  - (L * L / 140737488355328) <= calc_dr2 L (a - b) (c - d) - (fd L a b * fd L a b + fd L c d * fd L c d) <= L * L / 140737488355328.
Proof.
  intros L a b c d H A B C D. pose proof (box_pos L H) as LP.
  pose proof (fold_near L a b H A B) as E1. pose proof (fold_near L c d H C D) as E2.
  destruct (fd_cases L a b A B) as (F0 & F1 & _). destruct (fd_cases L c d C D) as (G0 & G1 & _).
  unfold calc_dr2. cbv zeta. set (x := fold_dist L (s64 (a - b))) in *. clearbody x. set (y := fold_dist L (s64 (c - d))) in *. clearbody y.
  set (f := fd L a b) in *. clearbody f. set (g := fd L c d) in *. clearbody g.
  pose proof (square_near L x f (L / 562949953421312) LP ltac:(lra) ltac:(lra) E1) as S1.
  pose proof (square_near L y g (L / 562949953421312) LP ltac:(lra) ltac:(lra) E2) as S2.
  assert (FF : 0 <= f * f <= L * L / 4) by nra. assert (GG : 0 <= g * g <= L * L / 4) by nra.
  set (xx := x * x) in *. clearbody xx. set (yy := y * y) in *. clearbody yy. set (ff := f * f) in *. clearbody ff. set (gg := g * g) in *. clearbody gg.
  replace (3 * (L / 562949953421312) * L / 2) with (3 * (L * L) / 1125899906842624) in * by lra.
  assert (LL : 0 < L * L) by nra.
  assert (BX : Rabs xx <= L * L / 2) by (apply Rabs_le; lra). assert (BY : Rabs yy <= L * L / 2) by (apply Rabs_le; lra).
  pose proof (abs_bounds _ _ (area64 L _ _ H BX)) as R1. pose proof (abs_bounds _ _ (area64 L _ _ H BY)) as R2.
  set (s := s64 xx) in *. clearbody s. set (t := s64 yy) in *. clearbody t.
  assert (BS : Rabs (s + t) <= 2 * (L * L)) by (apply Rabs_le; lra).
  pose proof (abs_bounds _ _ (area64 L _ _ H BS)) as R3. lra.
Qed.
