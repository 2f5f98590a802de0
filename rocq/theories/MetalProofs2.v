(** Proofs about the histogram of equivalent widths (C85). *)
From Coq Require Import ZArith List Bool Reals Lra Lia Arith.
From Flocq Require Import Core.Raux.
From Verif Require Import AbsorptionSpec AbsorptionProofs FluxModel FluxSpec FluxProofs FluxProofs2 FluxProofs3 CddfModel CddfProofs MetalModel MetalSpec MetalProofs.
Import ListNotations.
Local Open Scope R_scope.

Definition positive (w : R) : bool := if Rlt_dec 0 w then true else false.

Lemma ln10 : 0 < ln 10.
Proof. rewrite <- ln_1. apply ln_increasing; lra. Qed.

Lemma log_mono : forall x y, 0 < x -> x < y -> ln x / ln 10 < ln y / ln 10.
Proof. intros x y X XY. apply Rmult_lt_compat_r; [apply Rinv_0_lt_compat, ln10|apply ln_increasing; assumption]. Qed.

Lemma log_le : forall x y, 0 < x -> x <= y -> ln x / ln 10 <= ln y / ln 10.
Proof. intros x y X [XY| ->]; [left; apply log_mono; assumption|lra]. Qed.

Lemma fold_min : forall t x, (In (fold_left Rmin t x) (x :: t)) /\ forall y, In y (x :: t) -> fold_left Rmin t x <= y.
Proof.
  induction t as [|a t IH]; intros x; cbn [fold_left].
  - split; [left; reflexivity|]. intros y [->|[]]. lra.
  - destruct (IH (Rmin x a)) as [I L]. split.
    + destruct I as [I|I]; [|right; right; exact I]. rewrite <- I. unfold Rmin. destruct (Rle_dec x a); [left|right; left]; reflexivity.
    + intros y [->|[->|Y]]; [eapply Rle_trans; [apply L; left; reflexivity|apply Rmin_l]|eapply Rle_trans; [apply L; left; reflexivity|apply Rmin_r]|apply L; right; exact Y].
Qed.

Lemma fold_max : forall t x, (In (fold_left Rmax t x) (x :: t)) /\ forall y, In y (x :: t) -> y <= fold_left Rmax t x.
Proof.
  induction t as [|a t IH]; intros x; cbn [fold_left].
  - split; [left; reflexivity|]. intros y [->|[]]. lra.
  - destruct (IH (Rmax x a)) as [I L]. split.
    + destruct I as [I|I]; [|right; right; exact I]. rewrite <- I. unfold Rmax. destruct (Rle_dec x a); [right; left|left]; reflexivity.
    + intros y [->|[->|Y]]; [eapply Rle_trans; [apply Rmax_l|apply L; left; reflexivity]|eapply Rle_trans; [apply Rmax_r|apply L; left; reflexivity]|apply L; right; exact Y].
Qed.

Lemma in_pos : forall ws w, In w (filter positive ws) <-> In w ws /\ 0 < w.
Proof. intros ws w. rewrite filter_In. unfold positive. destruct (Rlt_dec 0 w); intuition congruence. Qed.

Lemma min_is : forall ws lo, least ws lo -> min_of (filter positive ws) = Some lo.
Proof.
  intros ws lo [I [P L]]. assert (J : In lo (filter positive ws)) by (apply in_pos; auto).
  destruct (filter positive ws) as [|x t] eqn:E; [destruct J|]. cbn [min_of]. destruct (fold_min t x) as [M1 M2]. f_equal.
  assert (A := M2 lo J). rewrite <- E in M1. apply in_pos in M1. destruct M1 as [M1 M3]. specialize (L _ M1 M3). lra.
Qed.

Lemma max_is : forall ws hi, greatest ws hi -> max_of (filter positive ws) = Some hi.
Proof.
  intros ws lo [I [P L]]. assert (J : In lo (filter positive ws)) by (apply in_pos; auto).
  destruct (filter positive ws) as [|x t] eqn:E; [destruct J|]. cbn [max_of]. destruct (fold_max t x) as [M1 M2]. f_equal.
  assert (A := M2 lo J). rewrite <- E in M1. apply in_pos in M1. destruct M1 as [M1 M3]. specialize (L _ M1). lra.
Qed.

Lemma number_some : forall (P : R -> Prop) (dec : forall x, P x \/ ~ P x) l, exists m, number P l m.
Proof.
  intros P dec. induction l as [|x l [m IH]]; [exists 0%nat; constructor|].
  destruct (dec x); [exists (S m); constructor 2|exists m; constructor 3]; assumption.
Qed.

Lemma number_pos : forall (P : R -> Prop) l m, number P l m -> forall x, In x l -> P x -> (0 < m)%nat.
Proof. intros P l m H. induction H; intros y I Q; [destruct I|lia|]. destruct I as [->|I]; [contradiction|eauto]. Qed.

(** Counting the logarithms of the positive numbers. *)
Lemma number_logs : forall (Q : R -> Prop) ws m, number Q (map log10 (filter positive ws)) m <->
  number (fun w => 0 < w /\ Q (ln w / ln 10)) ws m.
Proof.
  intros Q. induction ws as [|w ws IH]; intros m.
  - cbn. split; intros H; inversion H; constructor.
  - cbn [filter]. unfold positive at 1. destruct (Rlt_dec 0 w) as [P|P].
    + cbn [map]. split; intros H; inversion H; subst.
      * constructor 2; [auto|]. apply IH. assumption.
      * constructor 3; [tauto|]. apply IH. assumption.
      * constructor 2; [unfold log10; tauto|]. apply IH. assumption.
      * constructor 3; [unfold log10; tauto|]. apply IH. assumption.
    + split; intros H.
      * constructor 3; [tauto|]. apply IH, H.
      * inversion H; subst; [tauto|]. apply IH. assumption.
Qed.

Lemma hist_density_eq : forall (e : nat -> R) n l dv t, (forall i, (i < n)%nat -> e i < e (S i)) -> (forall i, e (S i) - e i = dv) -> (0 < n)%nat ->
  rsum (histogram l (map e (seq 0 (S n)))) = INR t -> (0 < t)%nat ->
  histogram_density l (map e (seq 0 (S n))) = Some (map (fun i => (cum e n l (S i) - cum e n l i) / dv / INR t) (seq 0 n)).
Proof.
  intros e n l dv t INC DV N E T. unfold histogram_density. rewrite E. destruct (Req_EM_T (INR t) 0) as [Z|_].
  { apply lt_0_INR in T. lra. }
  f_equal. rewrite hist_eq, diff_map, combine_maps, map_map. apply map_ext. intros i. cbn [fst snd]. rewrite DV. reflexivity.
Qed.

Section Hist.
Variables (ws : list R) (dv lo hi : R).
Hypotheses (D : 0 < dv) (LO : least ws lo) (HI : greatest ws hi) (LT : lo < hi).
Let a := ln lo / ln 10.
Let b := ln hi / ln 10.

Lemma ab : a < b.
Proof. apply log_mono; [apply LO|exact LT]. Qed.

Lemma C85_counts_aux : exists n centers f,
  a + INR n * dv < b <= a + INR (S n) * dv /\
  eq_width_hist ws dv = Some (centers, f) /\ length centers = n /\ length f = n /\
  exists t, number (fun w => 0 < w /\ ln w / ln 10 <= a + INR n * dv) ws t /\ (0 < t)%nat /\
  (forall i, (i < n)%nat -> nth i centers 0 = a + (INR i + / 2) * dv /\
     exists m, number (fun w => 0 < w /\ in_bin a dv n i (ln w / ln 10)) ws m /\ nth i f 0 = INR m / dv / INR t) /\
  ((0 < n)%nat -> sum (map (fun x => x * dv) f) = 1).
Proof.
  destruct (number_bins a b dv D ab) as [n [NB BB]]. set (e := fun i => a + INR i * dv).
  assert (INC : forall i, (i < n)%nat -> e i < e (S i)) by (intros i _; unfold e; rewrite S_INR; lra).
  assert (DV : forall i, e (S i) - e i = dv) by (intros i; unfold e; rewrite S_INR; ring).
  set (logs := map log10 (filter positive ws)).
  assert (LOW : forall x, In x logs -> a <= x).
  { intros x X. apply in_map_iff in X. destruct X as [w [<- W]]. apply in_pos in W. destruct W as [W1 W2]. destruct LO as [_ [P L]].
    apply log_le; [exact P|apply L; assumption]. }
  destruct (number_some (fun x => e 0%nat <= x <= e n)) with (l := logs) as [t T].
  { intros x. destruct (Rle_dec (e 0%nat) x), (Rle_dec x (e n)); tauto. }
  assert (T' : number (fun w => 0 < w /\ ln w / ln 10 <= a + INR n * dv) ws t).
  { assert (E : number (fun x => x <= e n) logs t).
    { clear - T LOW. assert (A : e 0%nat = a) by (unfold e; cbn; ring). revert LOW T. generalize logs. intros l LOW T. induction T as [|x l m P T IH|x l m P T IH].
      - constructor.
      - constructor 2; [tauto|]. apply IH. intros; apply LOW; right; assumption.
      - constructor 3; [|apply IH; intros; apply LOW; right; assumption]. intros Q. apply P. split; [rewrite A; apply LOW; left; reflexivity|exact Q]. }
    apply number_logs in E. exact E. }
  assert (TP : (0 < t)%nat).
  { destruct LO as [I [P L]]. apply (number_pos _ _ _ T' lo I). split; [exact P|]. fold a. assert (0 <= INR n) by apply pos_INR. nra. }
  assert (ED : arange (log10 lo) (log10 hi) dv = map e (seq 0 (S n))).
  { unfold arange. change (log10 lo) with a. change (log10 hi) with b. rewrite NB. reflexivity. }
  exists n, (map (fun i => (e i + e (S i)) / 2) (seq 0 n)), (map (fun i => (cum e n logs (S i) - cum e n logs i) / dv / INR t) (seq 0 n)).
  split; [exact BB|]. split.
  - unfold eq_width_hist. fold positive. rewrite (min_is ws lo LO), (max_is ws hi HI). rewrite ED. fold logs. rewrite centers_map.
    destruct n as [|n0]; [reflexivity|].
    unfold density. change (map e (seq 0 (S (S n0)))) with (e 0%nat :: e 1%nat :: map e (seq 2 n0)) at 1. cbv iota.
    rewrite (hist_density_eq e (S n0) logs dv t INC DV) by first [lia | exact (hist_total e (S n0) INC logs t ltac:(lia) T)]. reflexivity.
  - rewrite !map_length, !seq_length. split; [reflexivity|]. split; [reflexivity|]. exists t. split; [exact T'|]. split; [exact TP|].
    assert (NC : forall i, (i < n)%nat -> exists m, number (inside e n i) logs m /\ cum e n logs (S i) - cum e n logs i = INR m).
    { intros i I. destruct (number_some (inside e n i) (inside_dec e n i) logs) as [m M]. exists m. split; [exact M|].
      apply (inside_number e n INC); assumption. }
    split.
    + intros i I. split.
      * rewrite (nth_indep _ 0 ((e 0%nat + e 1%nat) / 2)) by (rewrite map_length, seq_length; exact I).
        rewrite (map_nth (fun i => (e i + e (S i)) / 2)), seq_nth by exact I. cbn [plus]. unfold e. rewrite S_INR. field.
      * destruct (NC i I) as [m [M C]]. exists m. split.
        -- apply number_logs in M. exact M.
        -- rewrite (nth_indep _ 0 ((cum e n logs 1 - cum e n logs 0) / dv / INR t)) by (rewrite map_length, seq_length; exact I).
           rewrite (map_nth (fun i => (cum e n logs (S i) - cum e n logs i) / dv / INR t)), seq_nth by exact I. cbn [plus]. rewrite C. reflexivity.
    + intros N. assert (HT := hist_total e n INC logs t N T). rewrite hist_eq in HT. rewrite map_map.
      assert (TI : 0 < INR t) by (apply lt_0_INR, TP).
      assert (SC := sum_scal (/ INR t) (fun i => cum e n logs (S i) - cum e n logs i) (seq 0 n)).
      unfold rsum in HT. change (fold_right Rplus 0) with sum in HT. rewrite HT in SC. rewrite Rinv_l in SC by lra. rewrite <- SC. f_equal.
      apply map_ext. intros i. field. split; lra.
Qed.

(** Fewer are counted than are positive. *)
Lemma C85_strongest_aux : forall n, a + INR n * dv < b ->
  (forall i, (i < n)%nat -> ~ in_bin a dv n i b) /\
  exists t all, number (fun w => 0 < w /\ ln w / ln 10 <= a + INR n * dv) ws t /\ number (fun w => 0 < w) ws all /\ (t < all)%nat.
Proof.
  intros n N. split.
  - intros i I [B1 [B2|[_ B2]]]; [|lra]. assert (INR (S i) <= INR n) by (apply le_INR; lia). nra.
  - destruct (number_some (fun w => 0 < w /\ ln w / ln 10 <= a + INR n * dv)) with (l := ws) as [t T].
    { intros x. destruct (Rlt_dec 0 x), (Rle_dec (ln x / ln 10) (a + INR n * dv)); tauto. }
    destruct (number_some (fun w => 0 < w)) with (l := ws) as [m M]. { intros x. destruct (Rlt_dec 0 x); tauto. }
    exists t, m. split; [exact T|]. split; [exact M|].
    assert (LEQ : forall l t m, number (fun w => 0 < w /\ ln w / ln 10 <= a + INR n * dv) l t -> number (fun w => 0 < w) l m ->
      (t <= m)%nat /\ (In hi l -> (t < m)%nat)).
    { clear T M t m. induction l as [|x l IH]; intros t m T M.
      - inversion T; inversion M; subst. split; [lia|intros []].
      - destruct HI as [_ [HP _]].
        inversion T as [|? ? ? T1 T2|? ? ? T1 T2]; subst; inversion M as [|? ? ? M1 M2|? ? ? M1 M2]; subst;
          destruct (IH _ _ T2 M2) as [I1 I2]; (split; [try lia; tauto|]); intros [E|E]; subst; try (specialize (I2 E)); try lia; try tauto.
        + exfalso. destruct T1 as [_ T1]. fold b in T1. lra. }
    destruct (LEQ ws t m T M) as [_ L]. apply L, HI.
Qed.
End Hist.

Lemma C85_close_aux : forall ws dv lo hi, 0 < dv -> least ws lo -> greatest ws hi -> ln hi / ln 10 <= ln lo / ln 10 + dv ->
  eq_width_hist ws dv = Some ([], []).
Proof.
  intros ws dv lo hi D LO HI C. assert (LE : lo <= hi) by (destruct HI as [_ [_ H]], LO as [I _]; apply H, I).
  destruct LE as [LT|E].
  - destruct (C85_counts_aux ws dv lo hi D LO HI LT) as [n [c [f [B [E [L1 [L2 _]]]]]]].
    assert (N : n = 0%nat).
    { destruct n as [|n]; [reflexivity|]. rewrite S_INR in B. assert (0 <= INR n) by apply pos_INR. nra. }
    subst n. destruct c; [|discriminate]. destruct f; [|discriminate]. exact E.
  - subst hi. unfold eq_width_hist. fold positive. rewrite (min_is ws lo LO), (max_is ws lo HI).
    unfold arange. rewrite Rminus_diag_eq by reflexivity. unfold Rdiv. rewrite Rmult_0_l.
    assert (Z : Zceil 0 = 0%Z) by (change 0 with (IZR 0); apply Zceil_IZR). rewrite Z. reflexivity.
Qed.

Lemma C85_none_aux : forall ws dv, (forall w, In w ws -> w <= 0) -> eq_width_hist ws dv = None.
Proof.
  intros ws dv H. unfold eq_width_hist. fold positive. assert (E : filter positive ws = []).
  { induction ws as [|w ws IH]; [reflexivity|]. cbn [filter]. unfold positive at 1. destruct (Rlt_dec 0 w).
    - specialize (H w (or_introl eq_refl)). lra.
    - apply IH. intros; apply H; right; assumption. }
  rewrite E. reflexivity.
Qed.

Lemma number_fun : forall (P : R -> Prop) l m, number P l m -> forall m', number P l m' -> m = m'.
Proof. intros P l m H. induction H; intros m' H'; inversion H'; subst; try contradiction; auto. Qed.

Lemma C85_strong_aux : forall ws dv lo hi, 0 < dv -> least ws lo -> greatest ws hi -> lo < hi ->
  let a := ln lo / ln 10 in
  exists centers f t all, eq_width_hist ws dv = Some (centers, f) /\ number (fun w => 0 < w) ws all /\ (t < all)%nat /\
    forall i, (i < length f)%nat -> ~ in_bin a dv (length f) i (ln hi / ln 10) /\
      exists m, number (fun w => 0 < w /\ in_bin a dv (length f) i (ln w / ln 10)) ws m /\ nth i f 0 = INR m / dv / INR t.
Proof.
  intros ws dv lo hi D LO HI LT a. destruct (C85_counts_aux ws dv lo hi D LO HI LT) as [n [c [f [B [E [L1 [L2 [t [T [TP [C _]]]]]]]]]]].
  destruct (C85_strongest_aux ws dv lo hi D HI n ltac:(apply B)) as [NB [t' [al [T' [A TA]]]]].
  assert (ET := number_fun _ _ _ T _ T'). subst t'. exists c, f, t, al. split; [exact E|]. split; [exact A|]. split; [exact TA|].
  rewrite L2. intros i I. split; [apply NB, I|]. apply (C i I).
Qed.
