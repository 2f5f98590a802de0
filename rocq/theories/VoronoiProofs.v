(** Proofs about the assignment of sightline segments to Voronoi cells. *)
From Coq Require Import ZArith List Lia Reals Lra Psatz Permutation.
From Flocq Require Import Core.Raux.
From Coquelicot Require Import Rcomplements.
From Verif Require Import VoronoiModel VoronoiSpec AbsorptionSpec AbsorptionProofs.
Import ListNotations.
Local Open Scope R_scope.

(** ** Distances on a circle *)

Lemma circle_unique : forall L a b d d', circle_distance L a b d -> circle_distance L a b d' -> d = d'.
Proof.
  intros L a b d d' ((k & ->) & H) ((k' & ->) & H'). specialize (H k'). specialize (H' k). lra.
Qed.

Lemma circle_nonneg : forall L a b d, circle_distance L a b d -> 0 <= d.
Proof. intros L a b d ((k & ->) & _). apply Rabs_pos. Qed.

Lemma circle_shift : forall L a b d k, circle_distance L a b d -> circle_distance L a (b + IZR k * L) d.
Proof.
  intros L a b d k ((j & E) & H). split.
  - exists (j + k)%Z. rewrite E. f_equal. rewrite plus_IZR. ring.
  - intros i. specialize (H (i - k)%Z). rewrite minus_IZR in H.
    replace (a - (b + IZR k * L) + IZR i * L) with (a - b + (IZR i - IZR k) * L) by ring. assumption.
Qed.

Lemma IZR_cases : forall k : Z, k = 0%Z \/ 1 <= IZR k \/ IZR k <= -1.
Proof.
  intros k. destruct (Z.eq_dec k 0) as [->|H]; [auto|right].
  destruct (Z_lt_le_dec k 0).
  - right. apply (IZR_le k (-1)). lia.
  - left. apply (IZR_le 1 k). lia.
Qed.

Lemma fold_sep_circle : forall L a b, 0 < L -> 0 <= a <= L -> 0 <= b <= L ->
  circle_distance L a b (fold_sep L (a - b)).
Proof.
  intros L a b HL Ha Hb. unfold fold_sep.
  destruct (Rlt_dec (L / 2) (Rabs (a - b))) as [H|H].
  - split.
    + destruct (Rle_lt_dec 0 (a - b)) as [P|P].
      * exists (-1)%Z. rewrite Rabs_pos_eq in H |- * by assumption. rewrite Rabs_left1 by lra. lra.
      * exists 1%Z. rewrite Rabs_left in H |- * by assumption. rewrite Rabs_pos_eq by lra. lra.
    + intros k. destruct (IZR_cases k) as [->|[K|K]].
      * replace (a - b + IZR 0 * L) with (a - b) by (simpl; ring). lra.
      * assert (IZR k * L >= L) by nra. unfold Rabs in *.
        destruct (Rcase_abs (a - b)); destruct (Rcase_abs (a - b + IZR k * L)); lra.
      * assert (IZR k * L <= - L) by nra. unfold Rabs in *.
        destruct (Rcase_abs (a - b)); destruct (Rcase_abs (a - b + IZR k * L)); lra.
  - split.
    + exists 0%Z. f_equal. simpl. ring.
    + intros k. destruct (IZR_cases k) as [->|[K|K]].
      * replace (a - b + IZR 0 * L) with (a - b) by (simpl; ring). lra.
      * assert (IZR k * L >= L) by nra. unfold Rabs in *.
        destruct (Rcase_abs (a - b)); destruct (Rcase_abs (a - b + IZR k * L)); lra.
      * assert (IZR k * L <= - L) by nra. unfold Rabs in *.
        destruct (Rcase_abs (a - b)); destruct (Rcase_abs (a - b + IZR k * L)); lra.
Qed.

Lemma fold_sep_bound : forall L d, 0 < L -> Rabs d <= L -> 0 <= fold_sep L d <= L / 2.
Proof.
  intros L d HL H. unfold fold_sep. pose proof (Rabs_pos d).
  destruct (Rlt_dec (L / 2) (Rabs d)); lra.
Qed.

(** The squared distance minimised by the code. *)
Definition dist2 (L y z x : R) (c : cell) : R :=
  let dx := fold_sep L (c_along c - x) in
  let dy := fold_sep L (c_second c - y) in
  let dz := fold_sep L (c_third c - z) in dx * dx + dy * dy + dz * dz.

Lemma dist2_nonneg : forall L y z x c, 0 <= dist2 L y z x c.
Proof. intros. unfold dist2. nra. Qed.

Lemma Rabs_sub_bound : forall L a b, 0 <= a <= L -> 0 <= b <= L -> Rabs (a - b) <= L.
Proof. intros. unfold Rabs. destruct (Rcase_abs (a - b)); lra. Qed.

Lemma dist2_bound : forall L y z x c, 0 < L -> inside_box L c -> 0 <= x <= L -> 0 <= y <= L ->
  0 <= z <= L -> dist2 L y z x c < L * L.
Proof.
  intros L y z x c HL (H1 & H2 & H3) Hx Hy Hz. unfold dist2.
  pose proof (fold_sep_bound L _ HL (Rabs_sub_bound L _ _ H1 Hx)).
  pose proof (fold_sep_bound L _ HL (Rabs_sub_bound L _ _ H2 Hy)).
  pose proof (fold_sep_bound L _ HL (Rabs_sub_bound L _ _ H3 Hz)).
  set (u := fold_sep L (c_along c - x)) in *. set (v := fold_sep L (c_second c - y)) in *.
  set (w := fold_sep L (c_third c - z)) in *.
  assert (u * u <= L / 2 * (L / 2)) by nra. assert (v * v <= L / 2 * (L / 2)) by nra.
  assert (w * w <= L / 2 * (L / 2)) by nra. nra.
Qed.

Lemma dist2_spec : forall L y z x c, 0 < L -> inside_box L c -> 0 <= x <= L -> 0 <= y <= L ->
  0 <= z <= L -> cell_distance2 L c x y z (dist2 L y z x c).
Proof.
  intros L y z x c HL (H1 & H2 & H3) Hx Hy Hz.
  exists (fold_sep L (c_along c - x)), (fold_sep L (c_second c - y)), (fold_sep L (c_third c - z)).
  repeat split; try (apply fold_sep_circle; assumption).
Qed.

Lemma cell_distance2_unique : forall L c x y z d d',
  cell_distance2 L c x y z d -> cell_distance2 L c x y z d' -> d = d'.
Proof.
  intros L c x y z d d' (dx & dy & dz & A & B & C & ->) (dx' & dy' & dz' & A' & B' & C' & ->).
  rewrite (circle_unique _ _ _ _ _ A A'), (circle_unique _ _ _ _ _ B B'), (circle_unique _ _ _ _ _ C C').
  reflexivity.
Qed.

(** ** The search for the nearest cell *)

Definition near_step (L y z x : R) (st : R * nat * nat) (c : cell) : R * nat * nat :=
  let '(min_dist, min_ind, ind) := st in
  let d := cell_dist L y z x c in
  if Rlt_dec d min_dist then (d, ind, S ind) else (min_dist, min_ind, S ind).

(** After scanning, the running minimum is the first minimum of the distances. *)
Lemma near_fold : forall L y z x cs pre md mi,
  (md = L /\ mi = O /\ (forall c, In c pre -> L <= cell_dist L y z x c)) \/
  (exists c, nth_error pre mi = Some c /\ md = cell_dist L y z x c /\
     forall m' c', nth_error pre m' = Some c' -> md <= cell_dist L y z x c' /\
       ((m' < mi)%nat -> md < cell_dist L y z x c')) ->
  exists md' mi' n', fold_left (near_step L y z x) cs (md, mi, length pre) = (md', mi', n') /\
  ((md' = L /\ mi' = O /\ (forall c, In c (pre ++ cs) -> L <= cell_dist L y z x c)) \/
   (exists c, nth_error (pre ++ cs) mi' = Some c /\ md' = cell_dist L y z x c /\
     forall m' c', nth_error (pre ++ cs) m' = Some c' -> md' <= cell_dist L y z x c' /\
       ((m' < mi')%nat -> md' < cell_dist L y z x c'))).
Proof.
  intros L y z x cs. induction cs as [|c cs IH]; intros pre md mi H.
  - exists md, mi, (length pre). simpl. rewrite app_nil_r. auto.
  - cbn [fold_left near_step].
    assert (Hlen : S (length pre) = length (pre ++ [c])) by (rewrite app_length; simpl; lia).
    assert (Happ : pre ++ c :: cs = (pre ++ [c]) ++ cs) by (rewrite <- app_assoc; reflexivity).
    rewrite Happ, Hlen.
    assert (Hnth : forall m' c', nth_error (pre ++ [c]) m' = Some c' ->
       (nth_error pre m' = Some c' /\ (m' < length pre)%nat) \/ (m' = length pre /\ c' = c)).
    { intros m' c' Hn. destruct (lt_dec m' (length pre)).
      - rewrite nth_error_app1 in Hn by assumption. auto.
      - rewrite nth_error_app2 in Hn by lia. right.
        destruct (m' - length pre)%nat as [|q] eqn:Q; simpl in Hn.
        + split; [lia|congruence].
        + destruct q; discriminate. }
    destruct (Rlt_dec (cell_dist L y z x c) md) as [Hlt|Hge].
    + apply IH. right. exists c.
      rewrite nth_error_app2, Nat.sub_diag by lia. split; [reflexivity|]. split; [reflexivity|].
      intros m' c' Hn. apply Hnth in Hn. destruct Hn as [(Hn & Hm)|(-> & ->)]; [|split; [lra|lia]].
      destruct H as [(-> & -> & Hall)|(c0 & E0 & -> & Hall)].
      * pose proof (Hall c' (nth_error_In _ _ Hn)). lra.
      * destruct (Hall m' c' Hn). lra.
    + apply IH. destruct H as [(-> & -> & Hall)|(c0 & E0 & -> & Hall)].
      * left. split; [reflexivity|]. split; [reflexivity|]. intros c' Hin. apply in_app_iff in Hin.
        destruct Hin as [Hin|[<-|[]]]; [auto|lra].
      * right. exists c0.
        assert (mi < length pre)%nat by (apply nth_error_Some; congruence).
        rewrite nth_error_app1 by assumption. split; [assumption|]. split; [reflexivity|].
        intros m' c' Hn. apply Hnth in Hn. destruct Hn as [(Hn & Hm)|(-> & ->)]; [auto|].
        split; [lra|lia].
Qed.

Lemma nearest_cell_spec : forall L y z cs x, 0 < L -> cs <> [] -> Forall (inside_box L) cs ->
  0 <= x <= L -> 0 <= y <= L -> 0 <= z <= L ->
  is_nearest L cs x y z (nearest_cell L y z cs x).
Proof.
  intros L y z cs x HL Hne Hin Hx Hy Hz. unfold nearest_cell.
  destruct (near_fold L y z x cs [] L O) as (md & mi & n & E & H).
  { left. split; [reflexivity|]. split; [reflexivity|]. intros c []. }
  match goal with |- context [fold_left ?f cs ?i] =>
    change (fold_left f cs i) with (fold_left (near_step L y z x) cs (L, O, length (@nil cell))) end.
  rewrite E. clear E. simpl in H. rewrite Forall_forall in Hin.
  assert (Hlt : forall c, In c cs -> cell_dist L y z x c < L).
  { intros c Hc. unfold cell_dist.
    change (sqrt (dist2 L y z x c) < L).
    apply Rlt_le_trans with (sqrt (L * L)); [|rewrite sqrt_square; lra]. apply sqrt_lt_1_alt.
    split; [apply dist2_nonneg|]. apply dist2_bound; auto. }
  destruct H as [(_ & _ & H)|(c & Hc & -> & H)].
  - exfalso. destruct cs as [|c cs]; [congruence|].
    pose proof (H c (or_introl eq_refl)). pose proof (Hlt c (or_introl eq_refl)). lra.
  - exists c, (dist2 L y z x c). split; [assumption|].
    assert (Ic : inside_box L c) by (apply Hin; eapply nth_error_In; eauto).
    split; [apply dist2_spec; assumption|].
    intros m' c' d' Hc' Hd'. destruct (H m' c' Hc') as (H1 & H2).
    assert (Ic' : inside_box L c') by (apply Hin; eapply nth_error_In; eauto).
    rewrite (cell_distance2_unique _ _ _ _ _ _ _ Hd' (dist2_spec L y z x c' HL Ic' Hx Hy Hz)).
    unfold cell_dist in *.
    change (sqrt (dist2 L y z x c) <= sqrt (dist2 L y z x c')) in H1.
    change ((m' < mi)%nat -> sqrt (dist2 L y z x c) < sqrt (dist2 L y z x c')) in H2.
    split.
    + apply sqrt_le_0; [apply dist2_nonneg|apply dist2_nonneg|assumption].
    + intros Hm. apply sqrt_lt_0_alt. auto.
Qed.

Lemma is_nearest_unique : forall L cs x y z m m', is_nearest L cs x y z m -> is_nearest L cs x y z m' -> m = m'.
Proof.
  intros L cs x y z m m' (c & d & E & D & H) (c' & d' & E' & D' & H').
  destruct (H m' c' d' E' D') as (H1 & H2). destruct (H' m c d E D) as (H3 & H4).
  destruct (lt_eq_lt_dec m m') as [[Hlt|]|Hlt]; [|assumption|]; exfalso.
  - specialize (H4 Hlt). lra.
  - specialize (H2 Hlt). lra.
Qed.

(** ** The points nearest to one cell form an arc *)

Lemma Rabs_sq : forall x, Rabs x * Rabs x = x * x.
Proof. intros x. unfold Rabs. destruct (Rcase_abs x); ring. Qed.

Lemma linear_between : forall p q c u1 u2 u3, u1 <= u2 -> u2 <= u3 ->
  (p * u1 + q <= c -> p * u3 + q <= c -> p * u2 + q <= c) /\
  (p * u1 + q < c -> p * u3 + q < c -> p * u2 + q < c).
Proof.
  intros. destruct (Rle_lt_dec 0 p); split; intros; nra.
Qed.

(** Distances along the line from a to u in its own window, and to a competitor b. *)
Lemma arc_three : forall L a b r s u1 u2 u3 e1 e2 e3 d1 d2 d3, 0 < L ->
  a - L / 2 <= u1 -> u1 <= u2 -> u2 <= u3 -> u3 <= a + L / 2 ->
  circle_distance L a u1 e1 -> circle_distance L a u2 e2 -> circle_distance L a u3 e3 ->
  circle_distance L b u1 d1 -> circle_distance L b u2 d2 -> circle_distance L b u3 d3 ->
  (e1 * e1 + r <= d1 * d1 + s -> e3 * e3 + r <= d3 * d3 + s -> e2 * e2 + r <= d2 * d2 + s) /\
  (e1 * e1 + r < d1 * d1 + s -> e3 * e3 + r < d3 * d3 + s -> e2 * e2 + r < d2 * d2 + s).
Proof.
  intros L a b r s u1 u2 u3 e1 e2 e3 d1 d2 d3 HL W1 O1 O2 W3 E1 E2 E3 D1 D2 D3.
  assert (near : forall u e, a - L / 2 <= u <= a + L / 2 -> circle_distance L a u e -> e * e = (u - a) * (u - a)).
  { intros u e Hu He.
    assert (e = Rabs (a - u)).
    { apply (circle_unique L a u); [assumption|]. split.
      - exists 0%Z. f_equal. simpl. ring.
      - intros k. destruct (IZR_cases k) as [->|[K|K]].
        + apply Req_le. f_equal. simpl. ring.
        + assert (IZR k * L >= L) by nra. unfold Rabs.
          destruct (Rcase_abs (a - u)); destruct (Rcase_abs (a - u + IZR k * L)); lra.
        + assert (IZR k * L <= - L) by nra. unfold Rabs.
          destruct (Rcase_abs (a - u)); destruct (Rcase_abs (a - u + IZR k * L)); lra. }
    subst e. rewrite Rabs_sq. ring. }
  rewrite (near u1 e1), (near u2 e2), (near u3 e3) by (try assumption; lra).
  destruct D2 as ((k & K2) & _). destruct D1 as (F1 & K1). destruct D3 as (F3 & K3).
  specialize (K1 k). specialize (K3 k).
  assert (P1 : 0 <= d1) by (destruct F1 as (? & ->); apply Rabs_pos).
  assert (P3 : 0 <= d3) by (destruct F3 as (? & ->); apply Rabs_pos).
  set (b' := b + IZR k * L).
  assert (Q1 : d1 * d1 <= (u1 - b') * (u1 - b')).
  { replace ((u1 - b') * (u1 - b')) with (Rabs (b - u1 + IZR k * L) * Rabs (b - u1 + IZR k * L)).
    - apply Rmult_le_compat; assumption.
    - rewrite Rabs_sq. unfold b'. ring. }
  assert (Q3 : d3 * d3 <= (u3 - b') * (u3 - b')).
  { replace ((u3 - b') * (u3 - b')) with (Rabs (b - u3 + IZR k * L) * Rabs (b - u3 + IZR k * L)).
    - apply Rmult_le_compat; assumption.
    - rewrite Rabs_sq. unfold b'. ring. }
  assert (Q2 : d2 * d2 = (u2 - b') * (u2 - b')).
  { rewrite K2, Rabs_sq. unfold b'. ring. }
  rewrite Q2.
  pose proof (linear_between (2 * (b' - a)) (a * a - b' * b') (s - r) u1 u2 u3 O1 O2) as (LB1 & LB2).
  split; intros A B.
  - assert (2 * (b' - a) * u2 + (a * a - b' * b') <= s - r) by (apply LB1; lra). lra.
  - assert (2 * (b' - a) * u2 + (a * a - b' * b') < s - r) by (apply LB2; lra). lra.
Qed.

(** Three points at shifted positions in the window of the cell. *)
Lemma nearest_between : forall L cs y z m c x1 x2 x3 k1 k2 k3, 0 < L -> Forall (inside_box L) cs ->
  0 <= x1 <= L -> 0 <= x2 <= L -> 0 <= x3 <= L -> 0 <= y <= L -> 0 <= z <= L ->
  nth_error cs m = Some c ->
  c_along c - L / 2 <= x1 + IZR k1 * L -> x1 + IZR k1 * L <= x2 + IZR k2 * L ->
  x2 + IZR k2 * L <= x3 + IZR k3 * L -> x3 + IZR k3 * L <= c_along c + L / 2 ->
  is_nearest L cs x1 y z m -> is_nearest L cs x3 y z m -> is_nearest L cs x2 y z m.
Proof.
  intros L cs y z m c x1 x2 x3 k1 k2 k3 HL Hin X1 X2 X3 Hy Hz Hc W1 O1 O2 W3 N1 N3.
  rewrite Forall_forall in Hin.
  assert (Ic : inside_box L c) by (apply Hin; eapply nth_error_In; eauto).
  destruct N1 as (c1 & e1 & E1 & D1 & M1). destruct N3 as (c3 & e3 & E3 & D3 & M3).
  assert (c1 = c) by congruence. assert (c3 = c) by congruence. subst c1 c3.
  destruct Ic as (Ia & Ib & Icc).
  pose proof (fold_sep_circle L (c_along c) x2 HL Ia X2) as F2.
  destruct D1 as (ex1 & ey & ez & A1 & B1 & C1 & ->). destruct D3 as (ex3 & ey' & ez' & A3 & B3 & C3 & ->).
  rewrite <- (circle_unique _ _ _ _ _ B1 B3), <- (circle_unique _ _ _ _ _ C1 C3) in *. clear B3 C3 ey' ez'.
  set (ex2 := fold_sep L (c_along c - x2)) in *.
  exists c, (ex2 * ex2 + ey * ey + ez * ez). split; [assumption|]. split.
  { exists ex2, ey, ez. auto. }
  intros m' c' d' Hc' Hd'.
  assert (Ic' : inside_box L c') by (apply Hin; eapply nth_error_In; eauto).
  destruct Ic' as (Ja & Jb & Jc). destruct Hd' as (dx2 & dy & dz & P2 & Q & R & ->).
  pose proof (fold_sep_circle L (c_along c') x1 HL Ja X1) as P1.
  pose proof (fold_sep_circle L (c_along c') x3 HL Ja X3) as P3.
  set (dx1 := fold_sep L (c_along c' - x1)) in *. set (dx3 := fold_sep L (c_along c' - x3)) in *.
  destruct (M1 m' c' (dx1 * dx1 + dy * dy + dz * dz) Hc') as (G1 & H1).
  { exists dx1, dy, dz. auto. }
  destruct (M3 m' c' (dx3 * dx3 + dy * dy + dz * dz) Hc') as (G3 & H3).
  { exists dx3, dy, dz. auto. }
  destruct (arc_three L (c_along c) (c_along c') (ey * ey + ez * ez) (dy * dy + dz * dz)
     (x1 + IZR k1 * L) (x2 + IZR k2 * L) (x3 + IZR k3 * L) ex1 ex2 ex3 dx1 dx2 dx3) as (T1 & T2);
    try assumption; try (apply circle_shift; assumption).
  split; [|intros Hm; specialize (H1 Hm); specialize (H3 Hm)]; lra.
Qed.

(** The box cut open opposite the cell. *)
Lemma window_cut : forall L a, 0 < L -> 0 <= a <= L ->
  exists c e, forall x, 0 <= x <= L ->
    (c <= x -> a - L / 2 <= x + IZR e * L <= a + L / 2) /\
    (x < c -> a - L / 2 <= x + IZR (e + 1) * L <= a + L / 2).
Proof.
  intros L a HL Ha. destruct (Rle_lt_dec (L / 2) a).
  - exists (a - L / 2), 0%Z. intros x Hx. simpl. split; intros; lra.
  - exists (a + L / 2), (-1)%Z. intros x Hx. replace (-1 + 1)%Z with 0%Z by lia. split; intros; lra.
Qed.

Lemma nearest_four : forall L cs y z m x0 x1 x2 x3, 0 < L -> Forall (inside_box L) cs ->
  0 <= y <= L -> 0 <= z <= L -> 0 <= x0 -> x0 <= x1 -> x1 <= x2 -> x2 <= x3 -> x3 <= L ->
  (is_nearest L cs x0 y z m -> is_nearest L cs x2 y z m ->
     is_nearest L cs x1 y z m \/ is_nearest L cs x3 y z m) /\
  (is_nearest L cs x1 y z m -> is_nearest L cs x3 y z m ->
     is_nearest L cs x2 y z m \/ is_nearest L cs x0 y z m).
Proof.
  intros L cs y z m x0 x1 x2 x3 HL Hin Hy Hz X0 X1 X2 X3 X4.
  assert (core : forall c, nth_error cs m = Some c -> inside_box L c ->
    (is_nearest L cs x0 y z m -> is_nearest L cs x2 y z m ->
     is_nearest L cs x1 y z m \/ is_nearest L cs x3 y z m) /\
    (is_nearest L cs x1 y z m -> is_nearest L cs x3 y z m ->
     is_nearest L cs x2 y z m \/ is_nearest L cs x0 y z m)).
  { intros c Hc (Ha & _).
    destruct (window_cut L (c_along c) HL Ha) as (cut & e & W).
    pose proof (W x0 ltac:(lra)) as (W0 & V0). pose proof (W x1 ltac:(lra)) as (W1 & V1).
    pose proof (W x2 ltac:(lra)) as (W2 & V2). pose proof (W x3 ltac:(lra)) as (W3 & V3).
    assert (Ee : IZR (e + 1) * L = IZR e * L + L) by (rewrite plus_IZR; ring).
    split; intros A B.
    - destruct (Rle_lt_dec cut x0).
      { left. apply (nearest_between L cs y z m c x0 x1 x2 e e e); try assumption; try lra. }
      destruct (Rlt_le_dec x2 cut).
      { left. apply (nearest_between L cs y z m c x0 x1 x2 (e+1) (e+1) (e+1)); try assumption; try lra. }
      right. apply (nearest_between L cs y z m c x2 x3 x0 e e (e+1)); try assumption; try lra.
    - destruct (Rle_lt_dec cut x1).
      { left. apply (nearest_between L cs y z m c x1 x2 x3 e e e); try assumption; try lra. }
      destruct (Rlt_le_dec x3 cut).
      { left. apply (nearest_between L cs y z m c x1 x2 x3 (e+1) (e+1) (e+1)); try assumption; try lra. }
      right. apply (nearest_between L cs y z m c x3 x0 x1 e (e+1) (e+1)); try assumption; try lra. }
  rewrite Forall_forall in Hin.
  destruct (nth_error cs m) as [c|] eqn:Hc.
  - apply (core c eq_refl). apply Hin. eapply nth_error_In; eauto.
  - split; intros (c & d & E & _); congruence.
Qed.

(** ** The loop over grid points *)

Lemma set_seg_length : forall arr m v, length (set_seg m v arr) = length arr.
Proof. induction arr; intros [|m] v; simpl; auto. Qed.

Lemma set_seg_nth : forall arr m v k, nth_error (set_seg m v arr) k =
  if Nat.eqb k m then (match nth_error arr k with Some _ => Some v | None => None end) else nth_error arr k.
Proof.
  induction arr as [|x arr IH]; intros [|m] v [|k]; simpl; auto.
  destruct (Nat.eqb k m); auto.
Qed.

Section Loop.
Variables (box w : R) (N : nat) (own : nat -> nat) (n : nat).
Hypothesis Hbox : 0 < box.
Hypothesis HN : (0 < N)%nat.
Hypothesis Hw : INR N * w = box.
Hypothesis Hown : forall i, (i < N)%nat -> (own i < n)%nat.
(** Arcs: no cell alternates. *)
Hypothesis arc_in : forall m i j k l, (i < j < k)%nat -> (k < l < N)%nat ->
  own i = m -> own k = m -> own j = m \/ own l = m.
Hypothesis arc_out : forall m i j k l, (i < j < k)%nat -> (k < l < N)%nat ->
  own j = m -> own l = m -> own k = m \/ own i = m.
Hypothesis guard : own (N / 2)%nat <> own 0%nat \/ forall i, (i < N)%nat -> own i = own 0%nat.

Let x := grid_point w.

Lemma w_pos : 0 < w.
Proof. apply lt_0_INR in HN. nra. Qed.

Lemma w_le_box : w <= box.
Proof. pose proof w_pos. apply le_INR in HN. simpl in HN. nra. Qed.

Lemma x_lt_reso : forall a, x a < w <-> a = 0%nat.
Proof.
  intros a. unfold x, grid_point. pose proof w_pos. split.
  - intros H1. destruct a; [reflexivity|]. exfalso. rewrite S_INR in H1. pose proof (pos_INR a). nra.
  - intros ->. simpl. lra.
Qed.

Lemma x_past_middle : forall i, box / 2 + / 2 * w < x i <-> (N < 2 * i)%nat.
Proof.
  intros i. unfold x, grid_point. pose proof w_pos. rewrite <- Hw. split.
  - intros H1. apply INR_lt. rewrite mult_INR. simpl. nra.
  - intros H1. apply lt_INR in H1. rewrite mult_INR in H1. simpl in H1. nra.
Qed.

Lemma x_lt_box : forall i, (i < N)%nat -> 0 < x i < box.
Proof.
  intros i H. unfold x, grid_point. pose proof w_pos. pose proof (pos_INR i).
  apply lt_le_S in H. apply le_INR in H. rewrite S_INR in H. rewrite <- Hw. split; nra.
Qed.

Lemma x_next : forall i b, 3 / 2 * w + x b < x i <-> (b + 1 < i)%nat.
Proof.
  intros i b. unfold x, grid_point. pose proof w_pos. split.
  - intros H1. assert (H2 : 3 / 2 + INR b < INR i) by nra.
    assert (~ (i <= b + 1)%nat); [|lia]. intros H3. apply le_INR in H3. rewrite plus_INR in H3. simpl in H3. lra.
  - intros H1. apply lt_le_S in H1. apply le_INR in H1. rewrite S_INR, plus_INR in H1. simpl in H1. nra.
Qed.

(** State of one cell after the first i grid points. *)
Definition seen (i m : nat) (s : R * R) : Prop :=
  ((forall j, (j < i)%nat -> own j <> m) /\ s = (3 * box, 3 * box)) \/
  (exists a b, (a <= b < i)%nat /\ s = (x a, x b) /\
     forall j, (j < i)%nat -> (own j = m <-> (a <= j <= b)%nat)).

(** State of one cell at the end, in units of the grid. *)
Definition final (m : nat) (s : R * R) : Prop :=
  ((forall j, (j < N)%nat -> own j <> m) /\ s = (3 * box, 3 * box)) \/
  (exists a len, (a < N)%nat /\ (0 < len <= N)%nat /\ s = (x a, x (a + len - 1)) /\
     forall j, (j < N)%nat -> (own j = m <-> (a <= j < a + len)%nat \/ (j + N < a + len)%nat)).

Lemma seen_step_other : forall i m s, seen i m s -> own i <> m -> seen (S i) m s.
Proof.
  intros i m s [(H & ->)|(a & b & Hab & -> & H)] Hm.
  - left. split; [|reflexivity]. intros j Hj.
    destruct (Nat.eq_dec j i); [subst; assumption|apply H; lia].
  - right. exists a, b. split; [lia|]. split; [reflexivity|]. intros j Hj.
    destruct (Nat.eq_dec j i); [subst; split; [congruence|lia]|apply H; lia].
Qed.

Lemma x_shift : forall b, x b + box = x (b + N).
Proof.
  intros b. unfold x, grid_point. rewrite plus_INR, <- Hw. ring.
Qed.

Lemma grid_loop_final : forall k i arr, (i + k = N)%nat -> length arr = n ->
  (forall m s, nth_error arr m = Some s -> seen i m s) ->
  exists arr', grid_loop box w own (seq i k) arr = Segments arr' /\ length arr' = n /\
    forall m s, nth_error arr' m = Some s -> final m s.
Proof.
  induction k as [|k IH]; intros i arr Hik Hlen Hseen.
  - exists arr. split; [reflexivity|]. split; [assumption|]. intros m s Hs.
    assert (i = N) by lia. subst i.
    destruct (Hseen m s Hs) as [(H & ->)|(a & b & Hab & -> & H)]; [left; auto|right].
    exists a, (b + 1 - a)%nat. split; [lia|]. split; [lia|].
    split; [do 2 f_equal; lia|]. intros j Hj. rewrite (H j Hj). lia.
  - cbn [seq grid_loop].
    assert (Hi : (i < N)%nat) by lia.
    destruct (nth_error arr (own i)) as [[lo hi]|] eqn:E.
    2:{ apply nth_error_None in E. pose proof (Hown i Hi). lia. }
    fold (x i).
    assert (Hcont : forall v,
       (forall s, nth_error arr (own i) = Some s -> seen (S i) (own i) v) ->
       exists arr', grid_loop box w own (seq (S i) k) (set_seg (own i) v arr) = Segments arr' /\
         length arr' = n /\ forall m s, nth_error arr' m = Some s -> final m s).
    { intros v Hv. apply IH; [lia|rewrite set_seg_length; assumption|].
      intros m s Hs. rewrite set_seg_nth in Hs. destruct (Nat.eqb_spec m (own i)) as [->|Hm].
      - rewrite E in Hs. injection Hs as <-. apply (Hv _ E).
      - apply seen_step_other; [apply Hseen; assumption|congruence]. }
    pose proof w_pos as Hwp. pose proof w_le_box as Hwb. pose proof (x_lt_box i Hi) as Hxi.
    destruct (Hseen _ _ E) as [(Hno & Hs)|(a & b & Hab & Hs & Hrange)]; injection Hs as -> ->.
    + (* first visit *)
      destruct (Rlt_dec (3 * box) w); [lra|].
      destruct (Rlt_dec (3 / 2 * w + 3 * box) (x i)); [lra|].
      destruct (Rlt_dec (2 * box) (3 * box)); [|lra].
      apply Hcont. intros _ _. right. exists i, i. split; [lia|]. split; [reflexivity|].
      intros j Hj. destruct (Nat.eq_dec j i); [subst; split; [lia|reflexivity]|].
      split; [intros Hj'; exfalso; apply (Hno j); [lia|assumption]|lia].
    + pose proof (x_lt_box a ltac:(lia)) as Hxa.
      assert (Own0 : a = 0%nat -> own i = own 0%nat).
      { intros ->. symmetry. apply (Hrange 0%nat ltac:(lia)). lia. }
      destruct (Nat.eq_dec b (i - 1)) as [Eb|Eb].
      * (* contiguous *)
        assert (Hstay : seen (S i) (own i) (x a, x i)).
        { right. exists a, i. split; [lia|]. split; [reflexivity|]. intros j Hj.
          destruct (Nat.eq_dec j i); [subst; split; [lia|reflexivity]|].
          rewrite (Hrange j ltac:(lia)). lia. }
        assert (Hnx : ~ 3 / 2 * w + x b < x i) by (rewrite x_next; lia).
        destruct (Rlt_dec (x a) w) as [Ha|Ha].
        -- apply x_lt_reso in Ha. subst a.
           destruct (Rlt_dec (box / 2 + / 2 * w) (x i)) as [Hmid|Hmid].
           ++ apply x_past_middle in Hmid.
              destruct guard as [G|G].
              { exfalso. apply G. rewrite <- (Own0 eq_refl). apply Hrange.
                - pose proof (Nat.div_lt_upper_bound N 2 i ltac:(lia) ltac:(lia)). lia.
                - pose proof (Nat.div_lt_upper_bound N 2 i ltac:(lia) ltac:(lia)). lia. }
              eexists. split; [reflexivity|]. split; [rewrite set_seg_length; assumption|].
              intros m s Hs. rewrite set_seg_nth in Hs. destruct (Nat.eqb_spec m (own i)) as [->|Hm].
              ** rewrite E in Hs. injection Hs as <-. right. exists i, N.
                 split; [lia|]. split; [lia|]. split; [rewrite x_shift; do 2 f_equal; lia|].
                 intros j Hj. rewrite (G j Hj), (G i Hi). split; [lia|reflexivity].
              ** destruct (Hseen m s Hs) as [(H & ->)|(a' & b' & Hab' & -> & H)].
                 --- left. split; [|reflexivity]. intros j Hj. rewrite (G j Hj), <- (G i Hi). congruence.
                 --- exfalso. apply Hm. rewrite (G i Hi), <- (G a' ltac:(lia)). symmetry. apply H; lia.
           ++ destruct (Rlt_dec (3 / 2 * w + x b) (x i)); [contradiction|].
              destruct (Rlt_dec (2 * box) (x 0%nat)); [lra|]. apply Hcont. intros _ _. assumption.
        -- destruct (Rlt_dec (3 / 2 * w + x b) (x i)); [contradiction|].
           destruct (Rlt_dec (2 * box) (x a)); [lra|]. apply Hcont. intros _ _. assumption.
      * (* a gap: only the cell of the first point, wrapping around *)
        assert (Gap : own (b + 1) <> own i) by (intros HH; apply (Hrange (b + 1)%nat) in HH; lia).
        assert (Inb : own b = own i) by (apply Hrange; lia).
        assert (Zero : own 0%nat = own i).
        { destruct (Nat.eq_dec b 0) as [->|Hb]; [assumption|].
          destruct (arc_out (own i) 0 b (b + 1) i ltac:(lia) ltac:(lia) Inb eq_refl); [contradiction|assumption]. }
        assert (a = 0%nat) by (apply (Hrange 0%nat ltac:(lia)) in Zero; lia). subst a.
        assert (Rest : forall l, (i < l < N)%nat -> own l = own i).
        { intros l Hl.
          destruct (arc_in (own i) 0 (b + 1) i l ltac:(lia) ltac:(lia) Zero eq_refl); [contradiction|assumption]. }
        destruct guard as [G|G].
        2:{ exfalso. apply Gap. rewrite (G (b + 1)%nat) by lia. congruence. }
        assert (Hhalf : (N / 2 < i)%nat).
        { destruct (Nat.lt_ge_cases (N / 2) i); [assumption|exfalso]. apply G. rewrite Zero.
          destruct (Nat.eq_dec i (N / 2)) as [->|]; [reflexivity|]. apply Rest.
          split; [lia|]. apply Nat.div_lt; lia. }
        assert (Hmid : (N < 2 * i)%nat).
        { pose proof (Nat.div_mod N 2 ltac:(lia)). pose proof (Nat.mod_upper_bound N 2 ltac:(lia)). lia. }
        assert (Hl0 : x 0%nat < w) by (apply x_lt_reso; reflexivity).
        destruct (Rlt_dec (x 0%nat) w); [|contradiction].
        destruct (Rlt_dec (box / 2 + / 2 * w) (x i)) as [_|Hc]; [|exfalso; apply Hc, x_past_middle; assumption].
        eexists. split; [reflexivity|]. split; [rewrite set_seg_length; assumption|].
        intros m s Hs. rewrite set_seg_nth in Hs. destruct (Nat.eqb_spec m (own i)) as [->|Hm].
        -- rewrite E in Hs. injection Hs as <-. right. exists i, (N - i + b + 1)%nat.
           split; [lia|]. split; [lia|]. split; [rewrite x_shift; do 2 f_equal; lia|].
           intros j Hj. destruct (Nat.lt_ge_cases j i) as [Hji|Hji].
           ++ rewrite (Hrange j Hji). lia.
           ++ split; [lia|]. intros _. destruct (Nat.eq_dec j i) as [->|]; [reflexivity|]. apply Rest. lia.
        -- destruct (Hseen m s Hs) as [(H & ->)|(a' & b' & Hab' & -> & H)].
           ++ left. split; [|reflexivity]. intros j Hj. destruct (Nat.lt_ge_cases j i) as [Hji|Hji]; [auto|].
              destruct (Nat.eq_dec j i) as [->|]; [congruence|]. rewrite Rest by lia. congruence.
           ++ right. exists a', (b' + 1 - a')%nat. split; [lia|]. split; [lia|].
              split; [do 2 f_equal; lia|]. intros j Hj. destruct (Nat.lt_ge_cases j i) as [Hji|Hji].
              ** rewrite (H j Hji). lia.
              ** assert (own j = own i).
                 { destruct (Nat.eq_dec j i) as [->|]; [reflexivity|]. apply Rest. lia. }
                 split; [congruence|lia].
Qed.

(** A final segment covers exactly the grid intervals of its points. *)
Lemma final_covers : forall m s, final m s -> (exists j, (j < N)%nat /\ own j = m) ->
  let seg := (fst s - / 2 * w, snd s + / 2 * w) in
  0 <= fst seg < snd seg /\ snd seg <= 2 * box /\
  forall i t, (i < N)%nat -> INR i * w < t < INR (i + 1) * w -> (covers box seg t <-> own i = m).
Proof.
  intros m s [(H & _)|(a & len & Ha & Hl & -> & H)] (j0 & Hj0 & Ej0) seg; [exfalso; apply (H j0); assumption|].
  pose proof w_pos as Hwp.
  assert (S1 : fst seg = INR a * w).
  { unfold seg, x, grid_point. simpl. ring. }
  assert (S2 : snd seg = INR (a + len) * w).
  { unfold seg, x, grid_point. simpl. replace (a + len)%nat with (a + len - 1 + 1)%nat at 2 by lia.
    rewrite (plus_INR (a + len - 1)). simpl. field. }
  assert (Hal : (a + len <= 2 * N)%nat) by lia.
  split; [|split].
  - rewrite S1, S2, plus_INR. pose proof (pos_INR a).
    pose proof (le_INR 1 len ltac:(lia)) as Hl1. simpl in Hl1.
    split; nra.
  - rewrite S2, <- Hw. apply le_INR in Hal. rewrite mult_INR in Hal. simpl in Hal. nra.
  - intros i t Hi Ht. unfold covers. rewrite S1, S2, (H i Hi), <- Hw. rewrite plus_INR in Ht. simpl in Ht.
    split.
    + intros (k & K1 & K2).
      assert (K1' : INR a < INR i + 1 + IZR k * INR N) by nra.
      assert (K2' : INR i + IZR k * INR N < INR (a + len)) by nra.
      rewrite !INR_IZR_INZ, <- mult_IZR in K1', K2'.
      rewrite <- !plus_IZR in K1'. rewrite <- plus_IZR in K2'.
      apply lt_IZR in K1', K2'.
      assert (Hk : k = 0%Z \/ k = 1%Z).
      { destruct (Z_lt_le_dec k 0); [exfalso; nia|]. destruct (Z_lt_le_dec 1 k); [exfalso; nia|]. lia. }
      destruct Hk as [->| ->]; lia.
    + intros [Hr|Hr].
      * exists 0%Z. simpl. destruct Hr as [R1 R2]. apply le_INR in R1. apply lt_le_S, le_INR in R2.
        rewrite S_INR in R2. split; nra.
      * exists 1%Z. simpl. apply lt_le_S, le_INR in Hr. rewrite S_INR, plus_INR in Hr.
        apply lt_INR in Ha. pose proof (pos_INR i). split; nra.
Qed.

Lemma final_length : forall m s, final m s -> (exists j, (j < N)%nat /\ own j = m) ->
  snd s - fst s + w = INR (length (filter (fun j => Nat.eqb (own j) m) (seq 0 N))) * w.
Proof.
  intros m s [(H & _)|(a & len & Ha & Hl & -> & H)] (j0 & Hj0 & Ej0); [exfalso; apply (H j0); assumption|].
  assert (E : length (filter (fun j => Nat.eqb (own j) m) (seq 0 N)) = len).
  { set (P := fun j => if lt_dec (a + j) N then (a + j)%nat else (a + j - N)%nat).
    transitivity (length (map P (seq 0 len))); [|rewrite map_length, seq_length; reflexivity].
    apply Permutation_length, NoDup_Permutation.
    - apply NoDup_filter, seq_NoDup.
    - assert (Inj : forall l, NoDup l -> (forall u, In u l -> (u < len)%nat) -> NoDup (map P l)).
      { induction l as [|u l IHl]; intros ND Hb; simpl; constructor; inversion ND; subst.
        - intros Hin. apply in_map_iff in Hin. destruct Hin as (v & Ev & Hv).
          assert (u = v); [|subst; contradiction].
          pose proof (Hb u (or_introl eq_refl)). pose proof (Hb v (or_intror Hv)).
          unfold P in Ev. destruct (lt_dec (a + v) N); destruct (lt_dec (a + u) N); lia.
        - apply IHl; auto. intros v Hv. apply Hb. right. assumption. }
      apply Inj; [apply seq_NoDup|]. intros u Hu. apply in_seq in Hu. lia.
    - intros j. rewrite filter_In, in_seq, Nat.eqb_eq, in_map_iff. split.
      + intros (Hj & Eo). apply (H j ltac:(lia)) in Eo. destruct Eo as [Eo|Eo].
        * exists (j - a)%nat. split; [|apply in_seq; lia]. unfold P. destruct (lt_dec (a + (j - a)) N); lia.
        * exists (j + N - a)%nat. split; [|apply in_seq; lia]. unfold P. destruct (lt_dec (a + (j + N - a)) N); lia.
      + intros (u & <- & Hu). apply in_seq in Hu.
        assert (HP : (P u < N)%nat) by (unfold P; destruct (lt_dec (a + u) N); lia).
        split; [lia|]. apply (H _ HP). unfold P in *. destruct (lt_dec (a + u) N); lia. }
  rewrite E. unfold x, grid_point. cbn [fst snd].
  replace (INR (a + len - 1)) with (INR a + INR len - 1).
  - ring.
  - rewrite minus_INR, plus_INR by lia. reflexivity.
Qed.
End Loop.

(** Each grid point is counted by exactly one cell. *)
Lemma count_total : forall (own : nat -> nat) n l, (forall i, In i l -> (own i < n)%nat) ->
  fold_right Nat.add 0%nat (map (fun m => length (filter (fun j => Nat.eqb (own j) m) l)) (seq 0 n)) = length l.
Proof.
  intros own n l. induction l as [|i l IH]; intros Hl.
  - simpl. generalize (seq 0 n). induction l; simpl; auto.
  - simpl length at 2. rewrite <- IH by (intros; apply Hl; right; assumption). clear IH.
    pose proof (Hl i (or_introl eq_refl)) as Hi.
    assert (G : forall d s, (s <= own i < s + d)%nat ->
       fold_right Nat.add 0%nat (map (fun m => length (filter (fun j => Nat.eqb (own j) m) (i :: l))) (seq s d)) =
       S (fold_right Nat.add 0%nat (map (fun m => length (filter (fun j => Nat.eqb (own j) m) l)) (seq s d)))).
    { assert (Z : forall d s, ~ (s <= own i < s + d)%nat ->
       fold_right Nat.add 0%nat (map (fun m => length (filter (fun j => Nat.eqb (own j) m) (i :: l))) (seq s d)) =
       fold_right Nat.add 0%nat (map (fun m => length (filter (fun j => Nat.eqb (own j) m) l)) (seq s d))).
      { induction d; intros s Hs; [reflexivity|]. cbn [seq map fold_right]. rewrite IHd by lia.
        f_equal. cbn [filter]. destruct (Nat.eqb_spec (own i) s); [lia|reflexivity]. }
      induction d; intros s Hs; [lia|]. cbn [seq map fold_right].
      destruct (Nat.eq_dec (own i) s).
      - rewrite Z by lia. cbn [filter]. destruct (Nat.eqb_spec (own i) s); [|lia]. simpl. lia.
      - rewrite IHd by lia. cbn [filter]. destruct (Nat.eqb_spec (own i) s); [lia|]. lia. }
    apply G. lia.
Qed.

(** ** The statements of the property file *)

Lemma grid_size_pos : forall box, RESO <= box -> (0 < grid_size box)%nat.
Proof.
  intros box H. unfold grid_size, RESO in *.
  assert (1 <= Ztrunc (box / (1 / 10)))%Z.
  { rewrite Ztrunc_floor by (apply Rdiv_le_0_compat; lra).
    apply Zfloor_lub. simpl. replace (box / (1 / 10)) with (10 * box) by field. lra. }
  lia.
Qed.

Lemma grid_total : forall box, RESO <= box -> INR (grid_size box) * grid_reso box = box.
Proof.
  intros box H. pose proof (grid_size_pos box H) as P. apply lt_0_INR in P.
  unfold grid_reso. field. lra.
Qed.

Lemma grid_point_inside : forall box i, RESO <= box -> (i < grid_size box)%nat ->
  0 <= grid_point (grid_reso box) i <= box.
Proof.
  intros box i H Hi. assert (0 < box) by (unfold RESO in H; lra).
  pose proof (x_lt_box box (grid_reso box) (grid_size box) ltac:(assumption) (grid_size_pos box H) (grid_total box H) i Hi). lra.
Qed.

Lemma grid_point_mono : forall w i j, 0 < w -> (i <= j)%nat -> grid_point w i <= grid_point w j.
Proof. intros w i j Hw H. unfold grid_point. apply le_INR in H. nra. Qed.

Lemma C14_tiling_aux : forall box yp zp cs,
  RESO <= box -> 0 <= yp <= box -> 0 <= zp <= box -> cs <> [] -> Forall (inside_box box) cs ->
  let N := grid_size box in let w := box / INR N in let x := fun i => (INR i + / 2) * w in
  (forall p, is_nearest box cs (x 0%nat) yp zp p ->
     ~ is_nearest box cs (x (N / 2)%nat) yp zp p \/
     forall i, (i < N)%nat -> is_nearest box cs (x i) yp zp p) ->
  exists segs, assign_cells box yp zp cs = Segments segs /\ length segs = length cs /\
    (forall m seg, nth_error segs m = Some seg ->
       (2 * box < fst seg /\ forall i, (i < N)%nat -> ~ is_nearest box cs (x i) yp zp m) \/
       (0 <= fst seg < snd seg /\ snd seg <= 2 * box /\
        (exists i, (i < N)%nat /\ is_nearest box cs (x i) yp zp m) /\
        forall i t, (i < N)%nat -> INR i * w < t < INR (i + 1) * w ->
          (covers box seg t <-> is_nearest box cs (x i) yp zp m))) /\
    rsum (map (fun s => if Rlt_dec (2 * box) (fst s) then 0 else snd s - fst s) segs) = box.
Proof.
  intros box yp zp cs Hb Hy Hz Hne Hin N w x Hg.
  assert (Hbox : 0 < box) by (unfold RESO in Hb; lra).
  pose proof (grid_size_pos box Hb) as HN. fold N in HN.
  pose proof (grid_total box Hb) as Hw. fold N in Hw. change (grid_reso box) with w in Hw.
  set (own := fun i => nearest_cell box yp zp cs (grid_point w i)).
  assert (Ow : forall i, (i < N)%nat -> is_nearest box cs (x i) yp zp (own i)).
  { intros i Hi. apply nearest_cell_spec; try assumption.
    apply (grid_point_inside box i Hb Hi). }
  assert (Owm : forall i m, (i < N)%nat -> (is_nearest box cs (x i) yp zp m <-> own i = m)).
  { intros i m Hi. split; [|intros <-; apply Ow; assumption].
    intros H. eapply is_nearest_unique; [apply Ow; assumption|exact H]. }
  assert (Hwp : 0 < w) by (apply (w_pos box w N); assumption).
  assert (Xin : forall i, (i < N)%nat -> 0 <= x i <= box) by (intros i Hi; apply (grid_point_inside box i Hb Hi)).
  assert (Xle : forall i j, (i <= j)%nat -> x i <= x j) by (intros; apply (grid_point_mono w); assumption).
  assert (Hn : forall i, (i < N)%nat -> (own i < length cs)%nat).
  { intros i Hi. destruct (Ow i Hi) as (c & d & E & _). apply nth_error_Some. congruence. }
  assert (A1 : forall m i j k l, (i < j < k)%nat -> (k < l < N)%nat ->
     own i = m -> own k = m -> own j = m \/ own l = m).
  { intros m i j k l H1 H2 E1 E2. rewrite <- !Owm in * by lia.
    apply (nearest_four box cs yp zp m (x i) (x j) (x k) (x l)); try assumption;
      try (apply Xle; lia); apply Xin; lia. }
  assert (A2 : forall m i j k l, (i < j < k)%nat -> (k < l < N)%nat ->
     own j = m -> own l = m -> own k = m \/ own i = m).
  { intros m i j k l H1 H2 E1 E2. rewrite <- !Owm in * by lia.
    apply (nearest_four box cs yp zp m (x i) (x j) (x k) (x l)); try assumption;
      try (apply Xle; lia); apply Xin; lia. }
  assert (G : own (N / 2)%nat <> own 0%nat \/ forall i, (i < N)%nat -> own i = own 0%nat).
  { destruct (Hg (own 0%nat) (Ow 0%nat HN)) as [H|H].
    - left. intros E. apply H. apply Owm; [apply Nat.div_lt; lia|assumption].
    - right. intros i Hi. apply Owm; [assumption|]. apply H. assumption. }
  destruct (grid_loop_final box w N own (length cs) Hbox HN Hw Hn A1 A2 G N 0
     (repeat (3 * box, 3 * box) (length cs)) ltac:(lia)) as (arr & E & La & Fin).
  { apply repeat_length. }
  { intros m s Hs. left. split; [intros j Hj; lia|].
    apply nth_error_In in Hs. apply repeat_spec in Hs. assumption. }
  exists (map (fun s => (fst s - / 2 * w, snd s + / 2 * w)) arr).
  split; [|split; [rewrite map_length; assumption|split]].
  - unfold assign_cells. change (grid_reso box) with w. fold N. fold own. rewrite E. reflexivity.
  - intros m seg Hs. rewrite nth_error_map in Hs.
    destruct (nth_error arr m) as [s|] eqn:Es; [|discriminate]. simpl in Hs. injection Hs as <-.
    pose proof (Fin m s Es) as F.
    destruct F as [(F & ->)|F].
    + left. split; [simpl; pose proof (w_le_box box w N Hbox HN Hw); lra|].
      intros i Hi H. apply Owm in H; [|assumption]. apply (F i); assumption.
    + right.
      assert (Ex : exists j, (j < N)%nat /\ own j = m).
      { destruct F as (a & len & Ha & Hl & _ & H). exists a. split; [assumption|]. apply H; lia. }
      destruct (final_covers box w N own Hbox HN Hw G m s (or_intror F) Ex) as (P1 & P2 & P3).
      split; [exact P1|]. split; [exact P2|]. split.
      * destruct Ex as (j & Hj & Ej). exists j. split; [assumption|]. apply Owm; assumption.
      * intros i t Hi Ht. rewrite (Owm i m Hi). apply P3; assumption.
  - rewrite map_map. cbn [fst snd].
    transitivity (rsum (map (fun m => INR (length (filter (fun j => Nat.eqb (own j) m) (seq 0 N))) * w) (seq 0 (length cs)))).
    + assert (Gen : forall l k, (forall m s, nth_error l m = Some s -> final box w N own (k + m) s) ->
         map (fun s : R * R => if Rlt_dec (2 * box) (fst s - / 2 * w) then 0
                else snd s + / 2 * w - (fst s - / 2 * w)) l =
         map (fun m => INR (length (filter (fun j => Nat.eqb (own j) m) (seq 0 N))) * w) (seq k (length l))).
      { induction l as [|s l IHl]; intros k Hl; [reflexivity|]. cbn [map length seq]. f_equal.
        - pose proof (Hl 0%nat s eq_refl) as F. rewrite Nat.add_0_r in F.
          pose proof (w_le_box box w N Hbox HN Hw) as Hwb.
          assert (F' := F). destruct F' as [(F' & Es)|F'].
          + subst s. cbn [fst snd]. destruct (Rlt_dec _ _); [|lra].
            replace (filter (fun j => Nat.eqb (own j) k) (seq 0 N)) with (@nil nat); [simpl; ring|].
            symmetry. assert (Fn : forall l', (forall j, In j l' -> (j < N)%nat) ->
               filter (fun j => Nat.eqb (own j) k) l' = []).
            { induction l' as [|j l' IHl']; intros Hj; [reflexivity|]. cbn [filter].
              destruct (Nat.eqb_spec (own j) k) as [Ej|Ej].
              - exfalso. apply (F' j); [apply Hj; left; reflexivity|assumption].
              - apply IHl'. intros; apply Hj; right; assumption. }
            apply Fn. intros j Hj. apply in_seq in Hj. lia.
          + assert (Ex : exists j, (j < N)%nat /\ own j = k).
            { destruct F' as (a & len & Ha & Hll & _ & H). exists a. split; [assumption|]. apply H; lia. }
            destruct (final_covers box w N own Hbox HN Hw G k s F Ex) as (P1 & P2 & _).
            cbn [fst snd] in P1, P2.
            rewrite <- (final_length box w N own Hbox HN Hw G k s F Ex).
            destruct (Rlt_dec _ _); [lra|]. lra.
        - apply IHl. intros m s' Hs'. replace (S k + m)%nat with (k + S m)%nat by lia. apply Hl. assumption. }
      rewrite (Gen arr 0%nat Fin), La. reflexivity.
    + pose proof (count_total own (length cs) (seq 0 N)) as CT.
      assert (Sc : forall l, rsum (map (fun m => INR (length (filter (fun j => Nat.eqb (own j) m) (seq 0 N))) * w) l) =
         INR (fold_right Nat.add 0%nat (map (fun m => length (filter (fun j => Nat.eqb (own j) m) (seq 0 N))) l)) * w).
      { induction l as [|m l IHl]; [unfold rsum; simpl; ring|].
        cbn [map fold_right]. rewrite plus_INR. unfold rsum in *. cbn [fold_right]. rewrite IHl. ring. }
      rewrite Sc, CT, seq_length; [assumption|]. intros i Hi. apply in_seq in Hi. apply Hn. lia.
Qed.

(** Two particular cells; used by the refutations. *)
Lemma nearest_two : forall L y z x a b, 0 < L -> inside_box L a -> inside_box L b ->
  0 <= x <= L -> 0 <= y <= L -> 0 <= z <= L ->
  (dist2 L y z x a <= dist2 L y z x b -> nearest_cell L y z [a; b] x = 0%nat) /\
  (dist2 L y z x b < dist2 L y z x a -> nearest_cell L y z [a; b] x = 1%nat).
Proof.
  intros L y z x a b HL Ia Ib Hx Hy Hz.
  pose proof (nearest_cell_spec L y z [a; b] x HL ltac:(discriminate)
     (Forall_cons _ Ia (Forall_cons _ Ib (Forall_nil _))) Hx Hy Hz) as NS.
  pose proof (dist2_spec L y z x a HL Ia Hx Hy Hz) as Da.
  pose proof (dist2_spec L y z x b HL Ib Hx Hy Hz) as Db.
  split; intros H; (eapply is_nearest_unique; [exact NS|]).
  - exists a, (dist2 L y z x a). split; [reflexivity|]. split; [assumption|].
    intros [|[|m']] c' d' E D; simpl in E; try (destruct m'; discriminate); injection E as <-.
    + rewrite (cell_distance2_unique _ _ _ _ _ _ _ D Da). split; [lra|lia].
    + rewrite (cell_distance2_unique _ _ _ _ _ _ _ D Db). split; [lra|lia].
  - exists b, (dist2 L y z x b). split; [reflexivity|]. split; [assumption|].
    intros [|[|m']] c' d' E D; simpl in E; try (destruct m'; discriminate); injection E as <-.
    + rewrite (cell_distance2_unique _ _ _ _ _ _ _ D Da). split; [lra|intros; lra].
    + rewrite (cell_distance2_unique _ _ _ _ _ _ _ D Db). split; [lra|lia].
Qed.

Lemma half_grid : grid_size (/ 2) = 5%nat.
Proof.
  unfold grid_size, RESO. replace (/ 2 / (1 / 10)) with (IZR 5) by (simpl; field).
  rewrite Ztrunc_IZR. reflexivity.
Qed.

Lemma half_reso : grid_reso (/ 2) = 1 / 10.
Proof. unfold grid_reso. rewrite half_grid. simpl. field. Qed.

(** Evaluates the numeric comparisons of the examples. *)
Lemma fold_sep_val : forall L d,
  (0 <= d <= L / 2 -> fold_sep L d = d) /\ (- (L / 2) <= d <= 0 -> fold_sep L d = - d) /\
  (0 < L / 2 < d -> fold_sep L d = L - d) /\ (0 < L / 2 < - d -> fold_sep L d = L + d).
Proof.
  intros L d. unfold fold_sep, Rabs.
  repeat split; intros; destruct (Rcase_abs d); destruct (Rlt_dec _ _); lra.
Qed.

Ltac eval_sep :=
  repeat match goal with |- context [fold_sep ?L ?d] =>
    let H := fresh in pose proof (fold_sep_val L d) as H;
    first [ rewrite (proj1 H) by lra | rewrite (proj1 (proj2 H)) by lra
          | rewrite (proj1 (proj2 (proj2 H))) by lra | rewrite (proj2 (proj2 (proj2 H))) by lra ]; clear H end.

Ltac numeric :=
  unfold dist2, grid_point, inside_box; cbn [c_along c_second c_third INR]; eval_sep; lra.

Definition exA := mkCell (15 / 100) 0 0.
Definition exB := mkCell (45 / 100) (187 / 1000) 0.

Lemma exA_in : inside_box (/ 2) exA. Proof. unfold exA. numeric. Qed.
Lemma exB_in : inside_box (/ 2) exB. Proof. unfold exB. numeric. Qed.

Lemma ex_own : forall i, (i < 5)%nat ->
  nearest_cell (/ 2) 0 0 [exA; exB] (grid_point (1 / 10) i) = (if Nat.eqb i 4 then 1 else 0)%nat.
Proof.
  intros i Hi.
  assert (Hx : 0 <= grid_point (1 / 10) i <= / 2).
  { rewrite <- half_reso. apply grid_point_inside; [unfold RESO; lra|rewrite half_grid; assumption]. }
  pose proof (nearest_two (/ 2) 0 0 (grid_point (1 / 10) i) exA exB ltac:(lra) exA_in exB_in Hx
    ltac:(lra) ltac:(lra)) as (H0 & H1).
  destruct i as [|[|[|[|[|i]]]]]; try lia; cbn [Nat.eqb]; (apply H0 || apply H1); unfold exA, exB; numeric.
Qed.

Lemma grid_loop_ext : forall box w own own' points arr,
  (forall i, In i points -> own i = own' i) ->
  grid_loop box w own points arr = grid_loop box w own' points arr.
Proof.
  induction points as [|i points IH]; intros arr H; [reflexivity|]. cbn [grid_loop].
  rewrite (H i (or_introl eq_refl)).
  destruct (nth_error arr (own' i)) as [[lo hi]|]; [|reflexivity].
  rewrite !IH by (intros; apply H; right; assumption). reflexivity.
Qed.

Lemma step_first : forall box w own i rest arr lo hi, nth_error arr (own i) = Some (lo, hi) ->
  w <= lo -> grid_point w i <= 3 / 2 * w + hi -> 2 * box < lo ->
  grid_loop box w own (i :: rest) arr =
  grid_loop box w own rest (set_seg (own i) (grid_point w i, grid_point w i) arr).
Proof.
  intros box w own i rest arr lo hi E H1 H2 H3. cbn [grid_loop]. rewrite E.
  destruct (Rlt_dec lo w); [lra|]. destruct (Rlt_dec (3 / 2 * w + hi) _); [lra|].
  destruct (Rlt_dec (2 * box) lo); [reflexivity|lra].
Qed.

Lemma step_next : forall box w own i rest arr lo hi, nth_error arr (own i) = Some (lo, hi) ->
  grid_point w i <= box / 2 + / 2 * w -> grid_point w i <= 3 / 2 * w + hi -> lo <= 2 * box ->
  grid_loop box w own (i :: rest) arr =
  grid_loop box w own rest (set_seg (own i) (lo, grid_point w i) arr).
Proof.
  intros box w own i rest arr lo hi E H1 H2 H3. cbn [grid_loop]. rewrite E.
  destruct (Rlt_dec (box / 2 + / 2 * w) _); [lra|]. destruct (Rlt_dec (3 / 2 * w + hi) _); [lra|].
  destruct (Rlt_dec (2 * box) lo); [lra|]. destruct (Rlt_dec lo w); reflexivity.
Qed.

Lemma step_break : forall box w own i rest arr lo hi, nth_error arr (own i) = Some (lo, hi) ->
  lo < w -> box / 2 + / 2 * w < grid_point w i ->
  grid_loop box w own (i :: rest) arr = Segments (set_seg (own i) (grid_point w i, hi + box) arr).
Proof.
  intros box w own i rest arr lo hi E H1 H2. cbn [grid_loop]. rewrite E.
  destruct (Rlt_dec lo w); [|lra]. destruct (Rlt_dec (box / 2 + / 2 * w) _); [reflexivity|lra].
Qed.

Lemma step_exit : forall box w own i rest arr lo hi, nth_error arr (own i) = Some (lo, hi) ->
  grid_point w i <= box / 2 + / 2 * w -> 3 / 2 * w + hi < grid_point w i ->
  grid_loop box w own (i :: rest) arr = Exits.
Proof.
  intros box w own i rest arr lo hi E H1 H2. cbn [grid_loop]. rewrite E.
  destruct (Rlt_dec (box / 2 + / 2 * w) _); [lra|].
  destruct (Rlt_dec (3 / 2 * w + hi) _); [|lra]. destruct (Rlt_dec lo w); reflexivity.
Qed.

Ltac num_step lem :=
  erewrite lem; [|reflexivity|unfold grid_point; cbn [INR]; lra..];
  cbn [Nat.eqb set_seg].

Lemma C14_middle_refuted_aux : exists box yp zp cs segs,
  RESO <= box /\ 0 <= yp <= box /\ 0 <= zp <= box /\ cs <> [] /\ Forall (inside_box box) cs /\
  assign_cells box yp zp cs = Segments segs /\
  let N := grid_size box in let w := box / INR N in
  (exists i, (i < N)%nat /\ is_nearest box cs ((INR i + / 2) * w) yp zp 1%nat) /\
  2 * box < fst (nth 1 segs (0, 0)) /\
  snd (nth 0 segs (0, 0)) - fst (nth 0 segs (0, 0)) = box.
Proof.
  exists (/ 2), 0, 0, [exA; exB], [(3 / 10, 8 / 10); (145 / 100, 155 / 100)].
  split; [unfold RESO; lra|]. split; [lra|]. split; [lra|]. split; [discriminate|].
  split; [exact (Forall_cons _ exA_in (Forall_cons _ exB_in (Forall_nil _)))|].
  split.
  - unfold assign_cells. rewrite half_reso, half_grid.
    rewrite (grid_loop_ext _ _ _ (fun i => if Nat.eqb i 4 then 1%nat else 0%nat)).
    2:{ intros i Hi. apply in_seq in Hi. apply ex_own. lia. }
    cbn [length repeat seq].
    num_step step_first. num_step step_next. num_step step_next. num_step step_break.
    cbn [map fst snd]. unfold grid_point. cbn [INR].
    assert (EQ : forall a b c d a' b' c' d' : R, a = a' -> b = b' -> c = c' -> d = d' ->
      Segments [(a, b); (c, d)] = Segments [(a', b'); (c', d')]) by (intros; subst; reflexivity).
    apply EQ; lra.
  - intros N w. split; [|split; simpl; lra].
    exists 4%nat. unfold N. rewrite half_grid. split; [lia|].
    change w with (grid_reso (/ 2)). rewrite half_reso.
    pose proof (ex_own 4 ltac:(lia)) as E4. cbn [Nat.eqb] in E4.
    change ((INR 4 + / 2) * (1 / 10)) with (grid_point (1 / 10) 4).
    rewrite <- E4 at 2.
    apply nearest_cell_spec; try lra; [discriminate|exact (Forall_cons _ exA_in (Forall_cons _ exB_in (Forall_nil _)))|].
    unfold grid_point. simpl. lra.
Qed.

Definition exC := mkCell (45 / 100) 0 0.
Definition exD := mkCell (15 / 100) (187 / 1000) 0.
Lemma exC_in : inside_box (/ 2) exC. Proof. unfold exC. numeric. Qed.
Lemma exD_in : inside_box (/ 2) exD. Proof. unfold exD. numeric. Qed.

Lemma ex_own2 : forall i, (i < 5)%nat ->
  nearest_cell (/ 2) 0 0 [exC; exD] (grid_point (1 / 10) i) = (if Nat.eqb i 1 then 1 else 0)%nat.
Proof.
  intros i Hi.
  assert (Hx : 0 <= grid_point (1 / 10) i <= / 2).
  { rewrite <- half_reso. apply grid_point_inside; [unfold RESO; lra|rewrite half_grid; assumption]. }
  pose proof (nearest_two (/ 2) 0 0 (grid_point (1 / 10) i) exC exD ltac:(lra) exC_in exD_in Hx
    ltac:(lra) ltac:(lra)) as (H0 & H1).
  destruct i as [|[|[|[|[|i]]]]]; try lia; cbn [Nat.eqb]; (apply H0 || apply H1); unfold exC, exD; numeric.
Qed.

Lemma C14_exit_refuted_aux : exists box yp zp cs,
  RESO <= box /\ 0 <= yp <= box /\ 0 <= zp <= box /\ cs <> [] /\ Forall (inside_box box) cs /\
  assign_cells box yp zp cs = Exits.
Proof.
  exists (/ 2), 0, 0, [exC; exD].
  split; [unfold RESO; lra|]. split; [lra|]. split; [lra|]. split; [discriminate|].
  split; [exact (Forall_cons _ exC_in (Forall_cons _ exD_in (Forall_nil _)))|].
  unfold assign_cells. rewrite half_reso, half_grid.
  rewrite (grid_loop_ext _ _ _ (fun i => if Nat.eqb i 1 then 1%nat else 0%nat)).
  2:{ intros i Hi. apply in_seq in Hi. apply ex_own2. lia. }
  cbn [length repeat seq].
  num_step step_first. num_step step_first. num_step step_exit. reflexivity.
Qed.

Lemma C14_no_cells_refuted_aux : forall box yp zp, RESO <= box -> assign_cells box yp zp [] = OutOfBounds.
Proof.
  intros box yp zp H. unfold assign_cells. pose proof (grid_size_pos box H) as P.
  destruct (grid_size box) as [|n]; [lia|]. simpl.
  reflexivity.
Qed.

Lemma grid_size_floor : forall box, 0 <= box -> grid_size box = Z.to_nat (Zfloor (10 * box)).
Proof.
  intros box H. unfold grid_size, RESO. rewrite Ztrunc_floor by (unfold Rdiv; lra). do 2 f_equal. field.
Qed.

Lemma C14_tiling_aux2 : forall box yp zp cs,
  1 / 10 <= box -> 0 <= yp <= box -> 0 <= zp <= box -> cs <> [] -> Forall (inside_box box) cs ->
  let N := Z.to_nat (Zfloor (10 * box)) in let w := box / INR N in let x := fun i => (INR i + / 2) * w in
  (forall p, is_nearest box cs (x 0%nat) yp zp p ->
     ~ is_nearest box cs (x (N / 2)%nat) yp zp p \/
     forall i, (i < N)%nat -> is_nearest box cs (x i) yp zp p) ->
  exists segs, assign_cells box yp zp cs = Segments segs /\ length segs = length cs /\
    (forall m seg, nth_error segs m = Some seg ->
       (2 * box < fst seg /\ forall i, (i < N)%nat -> ~ is_nearest box cs (x i) yp zp m) \/
       (0 <= fst seg < snd seg /\ snd seg <= 2 * box /\
        (exists i, (i < N)%nat /\ is_nearest box cs (x i) yp zp m) /\
        forall i t, (i < N)%nat -> INR i * w < t < INR (i + 1) * w ->
          (covers box seg t <-> is_nearest box cs (x i) yp zp m))) /\
    rsum (map (fun s => if Rlt_dec (2 * box) (fst s) then 0 else snd s - fst s) segs) = box.
Proof.
  intros box yp zp cs Hb. rewrite <- grid_size_floor by lra. revert box yp zp cs Hb. exact C14_tiling_aux.
Qed.

Lemma C14_middle_refuted_aux2 : exists box yp zp cs segs,
  1 / 10 <= box /\ 0 <= yp <= box /\ 0 <= zp <= box /\ cs <> [] /\ Forall (inside_box box) cs /\
  assign_cells box yp zp cs = Segments segs /\
  let N := Z.to_nat (Zfloor (10 * box)) in let w := box / INR N in
  (exists i, (i < N)%nat /\ is_nearest box cs ((INR i + / 2) * w) yp zp 1%nat) /\
  2 * box < fst (nth 1 segs (0, 0)) /\
  snd (nth 0 segs (0, 0)) - fst (nth 0 segs (0, 0)) = box.
Proof.
  destruct C14_middle_refuted_aux as (box & yp & zp & cs & segs & Hb & H). exists box, yp, zp, cs, segs.
  assert (1 / 10 <= box) by exact Hb. split; [assumption|]. rewrite <- grid_size_floor by lra. exact H.
Qed.
