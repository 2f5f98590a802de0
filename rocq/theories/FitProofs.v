(** Proofs about the Voigt profile fitter: the search for peaks. *)
From Coq Require Import ZArith List Reals Arith Lra Lia Bool.
From Flocq Require Import Core.Raux Core.Generic_fmt Core.Round_NE.
From Verif Require Import AbsorptionSpec FilterModel FilterProofs FitModel FitSpec.
Import ListNotations.
Local Open Scope R_scope.

Lemma rltb_true : forall a b, rltb a b = true <-> a < b.
Proof. intros. unfold rltb. destruct (Rlt_dec a b); split; intros; congruence || assumption. Qed.
Lemma rltb_false : forall a b, rltb a b = false <-> ~ a < b.
Proof. intros. unfold rltb. destruct (Rlt_dec a b); split; intros; congruence || assumption || (exfalso; auto). Qed.
Lemma rleb_true : forall a b, rleb a b = true <-> a <= b.
Proof. intros. unfold rleb. destruct (Rle_dec a b); split; intros; congruence || assumption. Qed.

Lemma nth_map_seq0 : forall (g : nat -> R) n j, (j < n)%nat -> nth j (map g (seq 0 n)) 0 = g j.
Proof.
  intros g n j H. rewrite (nth_indep _ 0 (g 0%nat)) by (rewrite map_length, seq_length; assumption).
  rewrite map_nth, seq_nth by assumption. reflexivity.
Qed.

Lemma map_seq_ext : forall (g h : nat -> R) n, (forall j, (j < n)%nat -> g j = h j) -> map g (seq 0 n) = map h (seq 0 n).
Proof. intros g h n H. apply map_ext_in. intros j Hj. apply in_seq in Hj. apply H. lia. Qed.

Lemma list_as_map : forall l : list R, l = map (fun i => nth i l 0) (seq 0 (length l)).
Proof.
  intros l. apply (nth_ext _ _ 0 0); [rewrite map_length, seq_length; reflexivity|].
  intros i Hi. rewrite nth_map_seq0 by assumption. reflexivity.
Qed.

Lemma argmax_unique : forall l b, (b < length l)%nat -> (forall j, (j < length l)%nat -> j <> b -> nth j l 0 < nth b l 0) ->
  argmax l = Some (b, nth b l 0).
Proof.
  intros l b Hb Hm. destruct (argmax_some l) as (b' & w & E); [destruct l; [cbn in Hb; lia|discriminate]|].
  destruct (argmax_spec _ _ _ E) as (Hb' & Ew & Hmax). rewrite E.
  destruct (Nat.eq_dec b' b) as [->|Hne]; [rewrite Ew; reflexivity|]. exfalso.
  specialize (Hm b' Hb' Hne). specialize (Hmax (nth b l 0) (nth_In _ _ Hb)). lra.
Qed.

Lemma argmax_highest : forall l b w, argmax l = Some (b, w) -> highest l w.
Proof.
  intros l b w E. destruct (argmax_spec _ _ _ E) as (Hb & Ew & Hmax). split; [rewrite <- Ew; apply nth_In; assumption|exact Hmax].
Qed.

(** ** Profiles *)

Lemma mid_lt : forall n, (0 < n)%nat -> (n / 2 < n)%nat.
Proof. intros n H. apply Nat.div_lt; lia. Qed.

Lemma arc_range : forall n j i, (0 < n)%nat -> (- Z.of_nat (n / 2) <= arc n j i < Z.of_nat n - Z.of_nat (n / 2))%Z.
Proof.
  intros n j i H. unfold arc. pose proof (Z.mod_pos_bound (j - i + Z.of_nat (n / 2)) (Z.of_nat n) ltac:(lia)). lia.
Qed.

Lemma arc_zero : forall n j i, (j < n)%nat -> (i < n)%nat -> arc n (Z.of_nat j) (Z.of_nat i) = 0%Z <-> j = i.
Proof.
  intros n j i Hj Hi. pose proof (mid_lt n ltac:(lia)) as Hm. unfold arc. set (m := Z.of_nat (n / 2)) in *.
  assert (Hm' : (0 <= m < Z.of_nat n)%Z) by (unfold m; lia). split.
  - intros E. set (q := ((Z.of_nat j - Z.of_nat i + m) / Z.of_nat n)%Z).
    pose proof (Z.div_mod (Z.of_nat j - Z.of_nat i + m) (Z.of_nat n) ltac:(lia)) as D. fold q in D.
    assert (Z.of_nat j - Z.of_nat i = Z.of_nat n * q)%Z by lia. assert (q = 0)%Z by nia. lia.
  - intros ->. replace (Z.of_nat i - Z.of_nat i + m)%Z with m by lia. rewrite Z.mod_small by lia. lia.
Qed.

Lemma peak_pixel_on : forall dvbin n i, 0 < dvbin -> (i < n)%nat -> peak_pixel dvbin n (INR i * dvbin) = Z.of_nat i.
Proof.
  intros dvbin n i Hd Hi. unfold peak_pixel. replace (INR i * dvbin / dvbin) with (INR i) by (field; lra).
  destruct (Rlt_dec (INR i) 0) as [L|_]; [pose proof (pos_INR i); lra|].
  rewrite INR_IZR_INZ, (Zrnd_IZR ZnearestE). apply Z.mod_small. lia.
Qed.

Definition shape (voigt : R -> Z -> R) (n : nat) (w a : R) (i : nat) : list R :=
  map (fun j => a * voigt w (arc n (Z.of_nat j) (Z.of_nat i))) (seq 0 n).

Lemma shape_length : forall voigt n w a i, length (shape voigt n w a i) = n.
Proof. intros. unfold shape. rewrite map_length, seq_length. reflexivity. Qed.

Lemma shape_nth : forall voigt n w a i j, (j < n)%nat -> nth j (shape voigt n w a i) 0 = a * voigt w (arc n (Z.of_nat j) (Z.of_nat i)).
Proof. intros. unfold shape. rewrite nth_map_seq0 by assumption. reflexivity. Qed.

Lemma shape_argmax : forall voigt n w a i, peaked voigt w -> 0 < a -> (i < n)%nat -> argmax (shape voigt n w a i) = Some (i, a).
Proof.
  intros voigt n w a i (V0 & V) Ha Hi. rewrite (argmax_unique _ i).
  - rewrite shape_nth by assumption. rewrite (proj2 (arc_zero n i i Hi Hi) eq_refl), V0. f_equal. f_equal. ring.
  - rewrite shape_length. assumption.
  - intros j Hj Hne. rewrite shape_length in Hj. rewrite !shape_nth by assumption.
    rewrite (proj2 (arc_zero n i i Hi Hi) eq_refl), V0.
    assert (arc n (Z.of_nat j) (Z.of_nat i) <> 0%Z) by (intros E; apply (arc_zero n j i Hj Hi) in E; congruence).
    specialize (V _ H). nra.
Qed.

Lemma voigt_profile_on : forall dvbin voigt n w a i, 0 < dvbin -> 0 < w -> peaked voigt w -> 0 < a -> (i < n)%nat ->
  voigt_profile dvbin voigt n w (INR i * dvbin) a = Some (shape voigt n w a i).
Proof.
  intros dvbin voigt n w a i Hd Hw V Ha Hi. unfold voigt_profile. rewrite peak_pixel_on by assumption.
  rewrite (Rabs_pos_eq w) by lra. rewrite (Rabs_pos_eq a) by lra. pose proof (mid_lt n ltac:(lia)) as Hm.
  set (rolled := map _ (seq 0 n)).
  assert (Lr : length rolled = n) by (unfold rolled; rewrite map_length, seq_length; reflexivity).
  assert (Nr : forall j, (j < n)%nat -> nth j rolled 0 = voigt w (Z.of_nat j - Z.of_nat (n / 2))%Z * a)
    by (intros j Hj; unfold rolled; rewrite nth_map_seq0 by assumption; reflexivity).
  assert (A : argmax rolled = Some ((n / 2)%nat, nth (n / 2) rolled 0)).
  { apply argmax_unique; [lia|]. rewrite Lr. intros j Hj Hne. rewrite !Nr by lia. destruct V as (V0 & V).
    rewrite Z.sub_diag, V0. specialize (V (Z.of_nat j - Z.of_nat (n / 2))%Z ltac:(lia)). nra. }
  rewrite A.
  assert (E : roll (Z.of_nat i - Z.of_nat (n / 2)) rolled = shape voigt n w a i).
  { unfold roll, shape. rewrite Lr. apply map_seq_ext. intros j Hj.
    assert (B : (0 <= (Z.of_nat j - (Z.of_nat i - Z.of_nat (n / 2))) mod Z.of_nat n < Z.of_nat n)%Z) by (apply Z.mod_pos_bound; lia).
    rewrite Nr by lia. rewrite Z2Nat.id by lia. unfold arc.
    replace (Z.of_nat j - (Z.of_nat i - Z.of_nat (n / 2)))%Z with (Z.of_nat j - Z.of_nat i + Z.of_nat (n / 2))%Z by lia. ring. }
  rewrite E, (shape_argmax voigt n w a i V Ha Hi), Z.eqb_refl. reflexivity.
Qed.

(** ** The minima *)

Lemma minima_nil : forall l, (2 <= length l)%nat -> minima l = [] <-> one_hump (length l) (fun i => nth i l 0).
Proof.
  intros l Hn. unfold minima, one_hump. set (n := length l) in *. set (g := fun i => nth i l 0).
  change (nth (n - 1) l 0) with (g (n - 1)%nat). change (nth (n - 2) l 0) with (g (n - 2)%nat).
  change (nth 0 l 0) with (g 0%nat). change (nth 1 l 0) with (g 1%nat).
  split.
  - intros E. apply app_eq_nil in E. destruct E as (E1 & E). apply app_eq_nil in E. destruct E as (E2 & E3).
    assert (NI : forall k, (0 < k)%nat -> (k < n - 1)%nat -> ~ (g k <= g (k - 1)%nat /\ g k <= g (k + 1)%nat)).
    { intros k H0 H1 (A & B). apply map_eq_nil in E1.
      assert (I : In (k - 1)%nat (filter (fun i => rleb (nth (S i) l 0) (nth (S (S i)) l 0) && rleb (nth (S i) l 0) (nth i l 0)) (seq 0 (n - 2)))).
      { apply filter_In. split; [apply in_seq; lia|]. apply andb_true_iff. rewrite !rleb_true.
        replace (S (k - 1)) with k by lia. replace (S k) with (k + 1)%nat by lia. split; assumption. }
      rewrite E1 in I. contradiction. }
    split; [|exact NI].
    destruct (Rtotal_order (g 0%nat) (g (n - 1)%nat)) as [L|[L|L]]; [exfalso|assumption|exfalso].
    + assert (N1 : g 1%nat <= g 0%nat).
      { destruct (Rlt_dec (g 0%nat) (g 1%nat)) as [G|G]; [|lra]. exfalso.
        rewrite (proj2 (rltb_true _ _) L), (proj2 (rltb_true _ _) G) in E3. discriminate. }
      assert (D : forall k, (1 <= k <= n - 1)%nat -> g k <= g 0%nat /\ ((2 <= k)%nat -> g k < g (k - 1)%nat)).
      { intros k. induction k as [|k IH]; [lia|]. intros Hk. destruct (Nat.eq_dec k 0) as [->|Hk0]; [split; [assumption|lia]|].
        destruct (IH ltac:(lia)) as (I1 & I2).
        assert (Hk1 : g k <= g (k - 1)%nat).
        { destruct (Nat.eq_dec k 1) as [->|]; [exact N1|]. specialize (I2 ltac:(lia)). lra. }
        assert (Hs : g (S k) < g k).
        { specialize (NI k ltac:(lia) ltac:(lia)). replace (k + 1)%nat with (S k) in NI by lia.
          destruct (Rlt_dec (g (S k)) (g k)); [assumption|]. exfalso. apply NI. lra. }
        split; [lra|]. intros _. replace (S k - 1)%nat with k by lia. assumption. }
      destruct (D (n - 1)%nat ltac:(lia)) as (D1 & _). lra.
    + assert (N1 : g (n - 2)%nat <= g (n - 1)%nat).
      { destruct (Rlt_dec (g (n - 1)%nat) (g (n - 2)%nat)) as [G|G]; [|lra]. exfalso.
        rewrite (proj2 (rltb_true _ _) L), (proj2 (rltb_true _ _) G) in E2. discriminate. }
      assert (D : forall d, (1 <= d <= n - 1)%nat -> g (n - 1 - d)%nat <= g (n - 1)%nat /\ ((2 <= d)%nat -> g (n - 1 - d)%nat < g (n - d)%nat)).
      { intros d. induction d as [|d IH]; [lia|]. intros Hd. destruct (Nat.eq_dec d 0) as [->|Hd0].
        - replace (n - 1 - 1)%nat with (n - 2)%nat by lia. split; [assumption|lia].
        - destruct (IH ltac:(lia)) as (I1 & I2).
          assert (Hd1 : g (n - 1 - d)%nat <= g (n - d)%nat).
          { destruct (Nat.eq_dec d 1) as [->|]; [replace (n - 1 - 1)%nat with (n - 2)%nat by lia; exact N1|]. specialize (I2 ltac:(lia)). lra. }
          assert (Hs : g (n - 1 - S d)%nat < g (n - 1 - d)%nat).
          { specialize (NI (n - 1 - d)%nat ltac:(lia) ltac:(lia)). replace (n - 1 - d + 1)%nat with (n - d)%nat in NI by lia.
            replace (n - 1 - d - 1)%nat with (n - 1 - S d)%nat in NI by lia.
            destruct (Rlt_dec (g (n - 1 - S d)%nat) (g (n - 1 - d)%nat)); [assumption|]. exfalso. apply NI. lra. }
          split; [lra|]. intros _. replace (n - S d)%nat with (n - 1 - d)%nat by lia. assumption. }
      destruct (D (n - 1)%nat ltac:(lia)) as (D1 & _). replace (n - 1 - (n - 1))%nat with 0%nat in D1 by lia. lra.
  - intros (Eq & NI). rewrite (proj2 (rltb_false (g (n - 1)%nat) (g 0%nat))) by lra. rewrite andb_false_r.
    rewrite (proj2 (rltb_false (g 0%nat) (g (n - 1)%nat))) by lra. cbn [andb app]. rewrite app_nil_r.
    match goal with |- map _ ?F = _ => destruct F as [|k t] eqn:Ef; [reflexivity|exfalso] end.
    assert (I : In k (k :: t)) by (left; reflexivity). rewrite <- Ef in I. apply filter_In in I. destruct I as (I1 & I2).
    apply in_seq in I1. apply andb_true_iff in I2. rewrite !rleb_true in I2. apply (NI (S k)); [lia|lia|].
    replace (S k - 1)%nat with k by lia. replace (S k + 1)%nat with (S (S k)) by lia. split; [apply I2|apply I2].
Qed.

Lemma fold_max_lt : forall (l : list Z) m, (0 < m)%Z -> (fold_right Z.max 0%Z (filter (fun i => (i <? m)%Z) l) < m)%Z.
Proof.
  intros l m Hm. induction l as [|x l IH]; cbn [filter fold_right]; [assumption|].
  destruct (Z.ltb_spec x m); cbn [fold_right]; lia.
Qed.
Lemma fold_min_gt : forall (l : list Z) m n, (m < n)%Z -> (m < fold_right Z.min n (filter (fun i => (m <? i)%Z) l))%Z.
Proof.
  intros l m n Hm. induction l as [|x l IH]; cbn [filter fold_right]; [assumption|].
  destruct (Z.ltb_spec m x); cbn [fold_right]; lia.
Qed.

(** fun_min can be evaluated unless there is no minimum. *)
Lemma fun_min_defined : forall dvbin voigt w a l, 0 < dvbin -> 0 < w -> peaked voigt w -> 0 < a -> nth (length l / 2) l 0 = a ->
  (exists v, fun_min dvbin voigt w a l = Some v) <-> (2 <= length l)%nat /\ ~ one_hump (length l) (fun i => nth i l 0).
Proof.
  intros dvbin voigt w a l Hd Hw V Ha E. unfold fun_min. destruct (Nat.ltb_spec (length l) 2) as [L|L].
  { split; [intros (v & H); discriminate|lia]. }
  rewrite E. destruct (Req_EM_T a a) as [_|N]; [|congruence].
  assert (Hm : (length l / 2 < length l)%nat) by (apply mid_lt; lia).
  rewrite voigt_profile_on by assumption. rewrite (shape_argmax voigt _ w a _ V Ha Hm), Nat.eqb_refl.
  pose proof (minima_nil l L) as M. destruct (minima l) as [|x t].
  - split; [intros (v & H); discriminate|]. intros (_ & H). exfalso. apply H. apply M. reflexivity.
  - assert (Hm0 : (0 < Z.of_nat (length l / 2))%Z).
    { assert (1 <= length l / 2)%nat; [|lia]. apply Nat.div_le_lower_bound; lia. }
    set (mins := filter _ (x :: t)). rewrite (proj2 (Z.ltb_lt _ _) (fold_max_lt mins _ Hm0)).
    rewrite (proj2 (Z.ltb_lt _ _) (fold_min_gt mins (Z.of_nat (length l / 2)) (Z.of_nat (length l)) ltac:(lia))). cbn [andb].
    split; [|intros _; eexists; reflexivity]. intros _. split; [assumption|]. intros H. apply M in H. discriminate.
Qed.

Lemma fold_max_nonneg : forall (l : list Z), (0 <= fold_right Z.max 0%Z l)%Z.
Proof. induction l; cbn [fold_right]; lia. Qed.
Lemma fold_min_le : forall (l : list Z) m, (fold_right Z.min m l <= m)%Z.
Proof. induction l as [|x l IH]; intros m; cbn [fold_right]; [lia|]. specialize (IH m). lia. Qed.

(** What is minimised. *)
Lemma C61_objective_aux : forall dvbin voigt a tau, 0 < dvbin -> 0 < a -> nth (length tau / 2) tau 0 = a -> (2 <= length tau)%nat ->
  ~ one_hump (length tau) (fun i => nth i tau 0) ->
  exists lo hi, (lo < length tau / 2 < hi)%nat /\ (hi <= length tau)%nat /\
    forall w, 0 < w -> peaked voigt w ->
    fun_min dvbin voigt w a tau =
      Some (rsum (map (fun i => (exp (- nth i tau 0) - exp (- (a * voigt w (Z.of_nat i - Z.of_nat (length tau / 2))%Z))) ^ 2) (seq lo (hi - lo)))).
Proof.
  intros dvbin voigt a l Hd Ha E L NH.
  assert (Hm : (length l / 2 < length l)%nat) by (apply mid_lt; lia).
  assert (Hm0 : (0 < Z.of_nat (length l / 2))%Z).
  { assert (1 <= length l / 2)%nat; [|lia]. apply Nat.div_le_lower_bound; lia. }
  set (mins := filter (fun i => rltb (ln (1 / 0.92)) (Rabs (a - py_nth l i))) (minima l)).
  pose proof (fold_max_lt mins _ Hm0) as B1.
  pose proof (fold_min_gt mins (Z.of_nat (length l / 2)) (Z.of_nat (length l)) ltac:(lia)) as B2.
  pose proof (fold_max_nonneg (filter (fun i => (i <? Z.of_nat (length l / 2))%Z) mins)) as B3.
  pose proof (fold_min_le (filter (fun i => (Z.of_nat (length l / 2) <? i)%Z) mins) (Z.of_nat (length l))) as B4.
  exists (Z.to_nat (fold_right Z.max 0%Z (filter (fun i => (i <? Z.of_nat (length l / 2))%Z) mins))),
    (Z.to_nat (fold_right Z.min (Z.of_nat (length l)) (filter (fun i => (Z.of_nat (length l / 2) <? i)%Z) mins))).
  split; [lia|]. split; [lia|]. intros w Hw V. unfold fun_min.
  destruct (Nat.ltb_spec (length l) 2) as [X|_]; [lia|].
  rewrite E. destruct (Req_EM_T a a) as [_|N]; [|congruence].
  rewrite voigt_profile_on by assumption. rewrite (shape_argmax voigt _ w a _ V Ha Hm), Nat.eqb_refl.
  pose proof (minima_nil l L) as M. subst mins. destruct (minima l) as [|x t]; [exfalso; apply NH, M; reflexivity|].
  rewrite (proj2 (Z.ltb_lt _ _) B1), (proj2 (Z.ltb_lt _ _) B2). cbn [andb].
  f_equal. f_equal. apply map_ext_in. intros i Hi. apply in_seq in Hi. rewrite shape_nth by lia. unfold arc.
  replace (Z.of_nat i - Z.of_nat (length l / 2) + Z.of_nat (length l / 2))%Z with (Z.of_nat i) by lia.
  rewrite Z.mod_small by lia. reflexivity.
Qed.

Lemma one_hump_ext : forall m g h, (0 < m)%nat -> (forall k, (k < m)%nat -> g k = h k) -> one_hump m g -> one_hump m h.
Proof.
  intros m g h Hm E (E0 & H). split; [rewrite <- !E by lia; assumption|].
  intros k H0 H1 (A & B). apply (H k H0 H1). rewrite !E by lia. split; assumption.
Qed.

(** ** The search *)

Section Search.
Variables (dvbin : R) (voigt : R -> Z -> R) (bounded : (R -> option R) -> option R) (tau : list R) (realtol sattau : R).
Hypothesis Hd : 0 < dvbin.
Hypothesis HV : forall w, 1 <= w <= 120 -> peaked voigt w.
Hypothesis HB : honest bounded.
Hypothesis Ht : 0 < realtol.

Let n := length tau.

Definition to_comp (p : peak) : comp := mkComp (width p) (INR (pixel_of p) * dvbin) (height p).
Definition residual (ps : list peak) : list R := map (left_over voigt tau ps) (seq 0 n).

Lemma residual_length : forall ps, length (residual ps) = n.
Proof. intros. unfold residual. rewrite map_length, seq_length. reflexivity. Qed.

Lemma residual_nth : forall ps j, (j < n)%nat -> nth j (residual ps) 0 = left_over voigt tau ps j.
Proof. intros. unfold residual. rewrite nth_map_seq0 by assumption. reflexivity. Qed.

Lemma residual_nil : residual [] = tau.
Proof.
  unfold residual. rewrite (list_as_map tau) at 2. apply map_seq_ext. intros j Hj. unfold left_over, fitted, rsum. cbn. ring.
Qed.

Lemma rsum_snoc : forall l x, rsum (l ++ [x]) = rsum l + x.
Proof. induction l as [|y l IH]; intros x; unfold rsum in *; cbn [app fold_right]; [ring|rewrite IH; ring]. Qed.

Lemma left_over_snoc : forall ps p j,
  left_over voigt tau (ps ++ [p]) j = left_over voigt tau ps j - height p * voigt (width p) (arc n (Z.of_nat j) (Z.of_nat (pixel_of p))).
Proof. intros. unfold left_over, fitted. rewrite map_app. cbn [map]. rewrite rsum_snoc. fold n. ring. Qed.

Definition sound_peak (p : peak) : Prop := 1 <= width p <= 120 /\ (pixel_of p < n)%nat /\ 0 < height p.

Lemma profile_multiple_on : forall ps, Forall sound_peak ps ->
  profile_multiple dvbin voigt n (map to_comp ps) = Some (map (fitted voigt n ps) (seq 0 n)).
Proof.
  intros ps Hp. unfold profile_multiple.
  assert (A : all_of (map (fun c => voigt_profile dvbin voigt n (c_width c) (c_mean c) (c_amp c)) (map to_comp ps)) =
              Some (map (fun p => shape voigt n (width p) (height p) (pixel_of p)) ps)).
  { induction Hp as [|p ps (Hw & Hi & Ha) Hp IH]; [reflexivity|]. cbn [map all_of].
    cbn [to_comp c_width c_mean c_amp]. rewrite voigt_profile_on by (try assumption; try lra; apply HV; assumption).
    rewrite IH. reflexivity. }
  rewrite A. f_equal. unfold sum_arrays. apply map_seq_ext. intros j Hj. unfold fitted. f_equal. rewrite map_map.
  apply map_ext. intros p. rewrite shape_nth by assumption. reflexivity.
Qed.

Lemma seen_from_roll : forall ps i k, (i < n)%nat -> (k < n)%nat ->
  nth k (roll (Z.of_nat (n / 2) - Z.of_nat i) (residual ps)) 0 = seen_from n i (left_over voigt tau ps) k.
Proof.
  intros ps i k Hi Hk. unfold roll. rewrite residual_length. rewrite nth_map_seq0 by assumption.
  assert (B : (0 <= (Z.of_nat k - (Z.of_nat (n / 2) - Z.of_nat i)) mod Z.of_nat n < Z.of_nat n)%Z) by (apply Z.mod_pos_bound; lia).
  rewrite residual_nth by lia. unfold seen_from. f_equal. f_equal. f_equal. lia.
Qed.

Lemma roll_length : forall k l, length (roll k l) = length l.
Proof. intros. unfold roll. rewrite map_length, seq_length. reflexivity. Qed.

(** What stops the search at a peak in pixel i. *)
Definition stuck (ps : list peak) (i : nat) : Prop := n = 1%nat \/ one_hump n (seen_from n i (left_over voigt tau ps)).

Lemma max_masked_spec : forall f mask v, max_masked f mask = Some v ->
  (exists i, In i mask /\ nth i f 0 = v) /\ forall i, In i mask -> nth i f 0 <= v.
Proof.
  intros f mask v H. unfold max_masked in H. destruct (argmax _) as [(b & w)|] eqn:E; [|discriminate]. injection H as ->.
  destruct (argmax_highest _ _ _ E) as (Hi & Hm). apply in_map_iff in Hi. destruct Hi as (i & Ei & Hi). split; [exists i; auto|].
  intros j Hj. apply Hm. apply in_map_iff. exists j. auto.
Qed.

Lemma max_masked_none : forall f mask, max_masked f mask = None -> mask = [].
Proof.
  intros f mask H. unfold max_masked in H. destruct mask as [|i mask]; [reflexivity|].
  destruct (argmax_some (map (fun i => nth i f 0) (i :: mask))) as (b & w & E); [discriminate|]. rewrite E in H. discriminate.
Qed.

Lemma iterate_on : forall ps mask v, (forall i, In i mask -> (i < n)%nat) -> max_masked (residual ps) mask = Some v -> realtol < v ->
  exists i, (i < n)%nat /\ left_over voigt tau ps i = v /\
    ((stuck ps i /\ iterate_new_spectrum dvbin voigt bounded (residual ps) mask = None) \/
     (~ stuck ps i /\ exists w, 1 <= w <= 120 /\
        iterate_new_spectrum dvbin voigt bounded (residual ps) mask = Some (residual (ps ++ [((w, i), v)]), to_comp ((w, i), v)))).
Proof.
  intros ps mask v Hmask Hv Hlt. unfold iterate_new_spectrum. rewrite Hv.
  destruct (max_masked_spec _ _ _ Hv) as ((i0 & Hi0 & Ei0) & Hmax).
  set (cond := fun x => if Req_EM_T x v then true else false).
  assert (W : In i0 (where_ cond (residual ps))).
  { unfold where_. apply filter_In. split; [apply in_seq; rewrite residual_length; specialize (Hmask i0 Hi0); lia|].
    unfold cond. rewrite Ei0. destruct (Req_EM_T v v); congruence. }
  destruct (where_ cond (residual ps)) as [|i rest] eqn:Ew; [contradiction|].
  assert (Wi : In i (where_ cond (residual ps))) by (rewrite Ew; left; reflexivity).
  unfold where_ in Wi. apply filter_In in Wi. destruct Wi as (Wi & Ci). apply in_seq in Wi. rewrite residual_length in Wi.
  assert (Hi : (i < n)%nat) by lia. unfold cond in Ci. destruct (Req_EM_T (nth i (residual ps) 0) v) as [Ev|]; [|discriminate].
  exists i. split; [assumption|]. split; [rewrite <- residual_nth by assumption; assumption|].
  rewrite Ev, residual_length. set (rl := roll (Z.of_nat (n / 2) - Z.of_nat i) (residual ps)).
  assert (Lrl : length rl = n) by (unfold rl; rewrite roll_length; apply residual_length).
  assert (Hm : (n / 2 < n)%nat) by (apply mid_lt; lia).
  assert (Emid : nth (length rl / 2) rl 0 = v).
  { rewrite Lrl. unfold rl. rewrite seen_from_roll by assumption. unfold seen_from.
    replace (Z.of_nat (n / 2) + Z.of_nat i - Z.of_nat (n / 2))%Z with (Z.of_nat i) by lia. rewrite Z.mod_small by lia. rewrite Nat2Z.id.
    rewrite <- residual_nth by assumption. assumption. }
  assert (Def : forall w, 1 <= w <= 120 -> (exists u, fun_min dvbin voigt w v rl = Some u) <-> ~ stuck ps i).
  { intros w Hw. rewrite (fun_min_defined dvbin voigt w v rl Hd ltac:(lra) (HV w Hw) ltac:(lra) Emid), Lrl. unfold stuck.
    assert (OH : one_hump n (fun k => nth k rl 0) <-> one_hump n (seen_from n i (left_over voigt tau ps))).
    { split; apply one_hump_ext; try lia; intros k Hk; unfold rl; rewrite seen_from_roll by assumption; reflexivity. }
    rewrite OH. split; [intros (A & B) [C|C]; [lia|auto]|]. intros H. split; [|tauto]. destruct (Nat.eq_dec n 1); [tauto|lia]. }
  destruct HB as (HB1 & HB2).
  destruct (bounded (fun w => fun_min dvbin voigt w v rl)) as [w|] eqn:Eb.
  - destruct (HB1 _ _ Eb) as (Hw & Hdef). apply (Def w Hw) in Hdef. right. split; [assumption|]. exists w. split; [assumption|].
    assert (Va : 0 < v) by lra. rewrite (voigt_profile_on dvbin voigt n w v i Hd ltac:(lra) (HV w Hw) Va Hi).
    rewrite (shape_argmax voigt n w v i (HV w Hw) Va Hi), Nat.eqb_refl.
    assert (Ne : residual ps <> []) by (intros C; pose proof (residual_length ps) as L; rewrite C in L; cbn in L; lia).
    destruct (argmax_some _ Ne) as (b & om & Eo). rewrite Eo.
    assert (New : map (fun p => fst p - snd p) (combine (residual ps) (shape voigt n w v i)) = residual (ps ++ [((w, i), v)])).
    { apply (nth_ext _ _ 0 0); [rewrite map_length, combine_length, shape_length, !residual_length; lia|].
      intros j Hj. rewrite map_length, combine_length, shape_length, residual_length in Hj.
      set (G := fun p : R * R => fst p - snd p).
      rewrite (nth_indep _ 0 (G (0, 0))) by (rewrite map_length, combine_length, shape_length, residual_length; lia).
      rewrite (map_nth G), combine_nth by (rewrite residual_length, shape_length; reflexivity). unfold G. cbn [fst snd].
      rewrite !residual_nth by lia. rewrite shape_nth by lia. rewrite left_over_snoc. reflexivity. }
    rewrite New. assert (Ne' : residual (ps ++ [((w, i), v)]) <> []).
    { intros C. pose proof (residual_length (ps ++ [((w, i), v)])) as L. rewrite C in L. cbn in L. lia. }
    destruct (argmax_some _ Ne') as (b' & nm & En). rewrite En.
    destruct (Rlt_dec nm om) as [|Nl]; [reflexivity|]. exfalso. apply Nl.
    destruct (argmax_spec _ _ _ En) as (Hb' & Enm & _). destruct (argmax_spec _ _ _ Eo) as (_ & _ & Hom).
    rewrite residual_length in Hb'. rewrite <- Enm, residual_nth by assumption. rewrite left_over_snoc. cbn [height width pixel_of fst snd].
    assert (nth b' (residual ps) 0 <= om) by (apply Hom, nth_In; rewrite residual_length; assumption).
    rewrite residual_nth in H by assumption.
    assert (0 < voigt w (arc n (Z.of_nat b') (Z.of_nat i))).
    { destruct (HV w Hw) as (V0 & V). destruct (Z.eq_dec (arc n (Z.of_nat b') (Z.of_nat i)) 0) as [->|Nz]; [lra|apply V; assumption]. }
    nra.
  - left. split; [|reflexivity]. destruct (Nat.eq_dec n 1) as [E1|E1]; [left; assumption|].
    right. assert (C : ~ ~ one_hump n (seen_from n i (left_over voigt tau ps))).
    { intros C. destruct (HB2 (fun w => fun_min dvbin voigt w v rl)) as (w & E); [|congruence].
      intros w Hw. apply (Def w Hw). intros [A|A]; auto. }
    destruct (Classical_Prop.classic (one_hump n (seen_from n i (left_over voigt tau ps)))) as [Y|N]; [assumption|contradiction].
Qed.

Definition inv (ps : list peak) (mask : list nat) : Prop :=
  from_spectrum voigt realtol sattau tau ps /\ (forall i, In i mask -> (i < n)%nat) /\
  (forall j, (j < n)%nat -> fitted voigt n ps j < sattau -> In j mask \/ left_over voigt tau ps j <= 0) /\
  (forall p, In p ps -> left_over voigt tau ps (pixel_of p) <= 0).

Lemma from_sound : forall ps, from_spectrum voigt realtol sattau tau ps -> Forall sound_peak ps.
Proof.
  intros ps (_ & H). apply Forall_forall. intros p Hp. apply in_split in Hp. destruct Hp as (a & b & E).
  destruct (H a p b E) as (H1 & H2 & _ & H3 & _). unfold sound_peak. fold n in H2. split; [assumption|]. split; [assumption|lra].
Qed.

Lemma inv_step : forall ps mask v i w fit, inv ps mask -> max_masked (residual ps) mask = Some v -> realtol < v -> (i < n)%nat ->
  left_over voigt tau ps i = v -> 1 <= w <= 120 ->
  fit = map (fitted voigt n (ps ++ [((w, i), v)])) (seq 0 n) ->
  inv (ps ++ [((w, i), v)]) (where_ (fun x => rltb x sattau) fit).
Proof.
  intros ps mask v i w fit ((Nd & Fs) & Hm & Hc & Hz) Hv Hlt Hi Ev Hw ->.
  assert (Vp : forall d, 0 < voigt w d).
  { intros d. destruct (HV w Hw) as (V0 & V). destruct (Z.eq_dec d 0) as [->|Nz]; [lra|apply V; assumption]. }
  assert (Dec : forall j, left_over voigt tau (ps ++ [((w, i), v)]) j <= left_over voigt tau ps j).
  { intros j. rewrite left_over_snoc. cbn [height width pixel_of fst snd]. specialize (Vp (arc n (Z.of_nat j) (Z.of_nat i))). nra. }
  assert (New : ~ In i (map pixel_of ps)).
  { intros C. apply in_map_iff in C. destruct C as (p & Ep & Hp). specialize (Hz p Hp). rewrite Ep, Ev in Hz. lra. }
  assert (Zi : left_over voigt tau (ps ++ [((w, i), v)]) i <= 0).
  { rewrite left_over_snoc. cbn [height width pixel_of fst snd]. rewrite (proj2 (arc_zero n i i Hi Hi) eq_refl).
    destruct (HV w Hw) as (V0 & _). rewrite V0, Ev. lra. }
  split; [split|split; [|split]].
  - rewrite map_app. cbn [map pixel_of fst snd]. apply NoDup_rev in Nd. rewrite <- (rev_involutive (map pixel_of ps ++ [i])).
    apply NoDup_rev. rewrite rev_app_distr. cbn [rev app]. constructor; [rewrite <- in_rev; assumption|assumption].
  - intros before p after E. destruct after as [|q after].
    + apply app_inj_tail in E. destruct E as (<- & <-). cbn [height width pixel_of fst snd]. split; [assumption|]. split; [assumption|].
      split; [symmetry; assumption|]. split; [assumption|]. intros j Hj Hs. destruct (Hc j Hj Hs) as [I|I]; [|lra].
      destruct (max_masked_spec _ _ _ Hv) as (_ & Hmax). specialize (Hmax j I). rewrite residual_nth in Hmax by assumption. assumption.
    + destruct (exists_last (l := q :: after)) as (after' & r & Er); [discriminate|]. rewrite Er in E.
      change (before ++ p :: after' ++ [r]) with (before ++ (p :: after') ++ [r]) in E. rewrite app_assoc in E.
      apply app_inj_tail in E. destruct E as (E & _). apply (Fs before p after' E).
  - intros j Hj. unfold where_ in Hj. apply filter_In in Hj. destruct Hj as (Hj & _). apply in_seq in Hj. rewrite map_length, seq_length in Hj. lia.
  - intros j Hj Hs. left. unfold where_. apply filter_In. rewrite map_length, seq_length. split; [apply in_seq; lia|].
    rewrite nth_map_seq0 by assumption. apply rltb_true. assumption.
  - intros p Hp. apply in_app_or in Hp. destruct Hp as [Hp|[<-|[]]]; [|exact Zi]. specialize (Hz p Hp). specialize (Dec (pixel_of p)). lra.
Qed.

Lemma used_up : forall ps mask, inv ps mask -> (n <= length ps)%nat -> forall j, (j < n)%nat -> left_over voigt tau ps j <= 0.
Proof.
  intros ps mask ((Nd & Fs) & Hm & Hc & Hz) Hlen j Hj.
  assert (Hin : incl (map pixel_of ps) (seq 0 n)).
  { intros x Hx. apply in_map_iff in Hx. destruct Hx as (p & <- & Hp). apply in_seq.
    pose proof (from_sound ps (conj Nd Fs)) as S. rewrite Forall_forall in S. destruct (S p Hp) as (_ & H & _). lia. }
  assert (I : In j (map pixel_of ps)).
  { apply (NoDup_length_incl (l' := seq 0 n) Nd); [rewrite map_length, seq_length; assumption|assumption|]. apply in_seq. lia. }
  apply in_map_iff in I. destruct I as (p & <- & Hp). apply Hz. assumption.
Qed.

Lemma find_peaks_on : forall fuel ps mask, inv ps mask -> (n <= fuel + length ps)%nat ->
  (exists qs, find_peaks dvbin voigt bounded fuel realtol sattau (residual ps) mask (map to_comp ps) = Done (map to_comp qs) /\
     from_spectrum voigt realtol sattau tau qs /\
     forall j, (j < n)%nat -> fitted voigt n qs j < sattau -> left_over voigt tau qs j <= realtol) \/
  (find_peaks dvbin voigt bounded fuel realtol sattau (residual ps) mask (map to_comp ps) = Raises /\
   exists qs i, from_spectrum voigt realtol sattau tau qs /\ (i < n)%nat /\ realtol < left_over voigt tau qs i /\ stuck qs i).
Proof.
  induction fuel as [|fuel IH]; intros ps mask HI Hlen; pose proof HI as ((Nd & Fs) & Hm & Hc & Hz); cbn [find_peaks].
  all: destruct (max_masked (residual ps) mask) as [v|] eqn:Ev.
  2, 4: left; exists ps; split; [reflexivity|]; split; [split; assumption|]; intros j Hj Hs;
        apply max_masked_none in Ev; subst mask; destruct (Hc j Hj Hs) as [[]|C]; lra.
  all: destruct (Rlt_dec realtol v) as [Hlt|Hlt].
  2, 4: left; exists ps; split; [reflexivity|]; split; [split; assumption|]; intros j Hj Hs; destruct (Hc j Hj Hs) as [I|C]; [|lra];
        destruct (max_masked_spec _ _ _ Ev) as (_ & Hmax); specialize (Hmax j I); rewrite residual_nth in Hmax by assumption; lra.
  - exfalso. destruct (max_masked_spec _ _ _ Ev) as ((i & Hi & Ei) & _). specialize (Hm i Hi). rewrite residual_nth in Ei by assumption.
    pose proof (used_up ps mask HI ltac:(lia) i Hm). lra.
  - destruct (iterate_on ps mask v Hm Ev Hlt) as (i & Hi & Eil & [(St & E)|(_ & w & Hw & E)]); rewrite E.
    + right. split; [reflexivity|]. exists ps, i. split; [split; assumption|]. split; [assumption|]. split; [lra|assumption].
    + rewrite residual_length. replace (map to_comp ps ++ [to_comp (w, i, v)]) with (map to_comp (ps ++ [(w, i, v)])) by (rewrite map_app; reflexivity).
      assert (HI' := inv_step ps mask v i w _ HI Ev Hlt Hi Eil Hw eq_refl).
      rewrite profile_multiple_on by (apply from_sound, HI').
      apply IH; [assumption|]. rewrite app_length. cbn [length]. lia.
Qed.

End Search.

Lemma C61_search_aux : forall dvbin voigt bounded tol sattau tau fuel m,
  0 < dvbin -> (forall w, 1 <= w <= 120 -> peaked voigt w) -> honest bounded -> 0 < tol -> (length tau <= fuel)%nat -> highest tau m ->
  let realtol := tol * Rmax 1 m in
  (exists ps,
     search dvbin voigt bounded fuel tol sattau tau =
       Done (map (fun p => mkComp (width p) (INR (pixel_of p) * dvbin) (height p)) ps) /\
     from_spectrum voigt realtol sattau tau ps /\ (length ps <= length tau)%nat /\
     forall j, (j < length tau)%nat -> fitted voigt (length tau) ps j < sattau -> left_over voigt tau ps j <= realtol) \/
  (search dvbin voigt bounded fuel tol sattau tau = Raises /\
   exists ps i, from_spectrum voigt realtol sattau tau ps /\ (i < length tau)%nat /\ realtol < left_over voigt tau ps i /\
     (length tau = 1%nat \/ one_hump (length tau) (seen_from (length tau) i (left_over voigt tau ps)))).
Proof.
  intros dvbin voigt bounded tol sattau tau fuel m Hd HV HB Htol Hf (Hin & Hmax) realtol.
  assert (Ht : 0 < realtol) by (unfold realtol; apply Rmult_lt_0_compat; [assumption|]; pose proof (Rmax_l 1 m); lra).
  unfold search, real_tol. destruct (argmax_some tau) as (b & v & E); [destruct tau; [contradiction|discriminate]|]. rewrite E.
  assert (v = m) as ->.
  { destruct (argmax_highest _ _ _ E) as (H1 & H2). specialize (H2 m Hin). specialize (Hmax v H1). lra. }
  fold realtol.
  assert (I0 : inv voigt tau realtol sattau [] (where_ (fun x => rltb (-1) x) tau)).
  { split; [split; [constructor|]|split; [|split]].
    - intros before p after Eq. destruct before; discriminate.
    - intros i Hi. unfold where_ in Hi. apply filter_In in Hi. destruct Hi as (Hi & _). apply in_seq in Hi. lia.
    - intros j Hj _. unfold where_. destruct (Rlt_dec (-1) (nth j tau 0)) as [L|L].
      + left. apply filter_In. split; [apply in_seq; lia|]. apply rltb_true. assumption.
      + right. unfold left_over, fitted, rsum. cbn [map fold_right]. lra.
    - intros p []. }
  assert (Hlen : (length tau <= fuel + length (@nil peak))%nat) by (cbn [length]; lia).
  destruct (find_peaks_on dvbin voigt bounded tau realtol sattau Hd HV HB Ht fuel [] _ I0 Hlen) as [(qs & Eq & Fs & End)|(Eq & qs & i & Fs & Hi & Hl & St)].
  - left. exists qs. rewrite residual_nil in Eq. split; [exact Eq|]. split; [assumption|]. split; [|assumption].
    destruct Fs as (Nd & Fs). rewrite <- (map_length pixel_of). rewrite <- (seq_length (length tau) 0). apply NoDup_incl_length; [assumption|].
    intros x Hx. apply in_map_iff in Hx. destruct Hx as (p & <- & Hp). apply in_seq. apply in_split in Hp. destruct Hp as (a & c & Ep).
    destruct (Fs a p c Ep) as (_ & H & _). lia.
  - right. rewrite residual_nil in Eq. split; [exact Eq|]. exists qs, i. split; [assumption|]. split; [assumption|]. split; [assumption|]. exact St.
Qed.

(** A single hump in the middle: the assertion of fun_min fails. *)
Lemma C61_one_hump_aux : forall dvbin voigt bounded tol sattau tau fuel,
  0 < dvbin -> (forall w, 1 <= w <= 120 -> peaked voigt w) -> honest bounded -> 0 < tol -> (length tau <= fuel)%nat ->
  let top := nth (length tau / 2) tau 0 in
  (2 <= length tau)%nat -> one_hump (length tau) (fun i => nth i tau 0) ->
  (forall j, (j < length tau)%nat -> j <> (length tau / 2)%nat -> nth j tau 0 < top) -> tol * Rmax 1 top < top ->
  search dvbin voigt bounded fuel tol sattau tau = Raises.
Proof.
  intros dvbin voigt bounded tol sattau tau fuel Hd HV HB Htol Hf top Hn Hump Hmax Htop.
  assert (Hmid : (length tau / 2 < length tau)%nat) by (apply mid_lt; lia).
  assert (Am : argmax tau = Some ((length tau / 2)%nat, top)) by (apply argmax_unique; assumption).
  unfold search, real_tol. rewrite Am. set (realtol := tol * Rmax 1 top) in *.
  assert (Ht : 0 < realtol) by (unfold realtol; apply Rmult_lt_0_compat; [assumption|]; pose proof (Rmax_l 1 top); lra).
  set (mask := where_ (fun x => rltb (-1) x) tau).
  assert (Hmask : forall i, In i mask -> (i < length tau)%nat).
  { intros i Hi. unfold mask, where_ in Hi. apply filter_In in Hi. destruct Hi as (Hi & _). apply in_seq in Hi. lia. }
  assert (Im : In (length tau / 2)%nat mask).
  { unfold mask, where_. apply filter_In. split; [apply in_seq; lia|]. apply rltb_true. fold top. lra. }
  assert (Ev : max_masked tau mask = Some top).
  { destruct (max_masked tau mask) as [v|] eqn:Ev; [|apply max_masked_none in Ev; rewrite Ev in Im; contradiction].
    destruct (max_masked_spec _ _ _ Ev) as ((i & Hi & Ei) & Hx). specialize (Hx _ Im). fold top in Hx.
    destruct (Nat.eq_dec i (length tau / 2)) as [->|Ne]; [fold top in Ei; congruence|]. specialize (Hmax i (Hmask i Hi) Ne). f_equal. lra. }
  rewrite <- (residual_nil voigt tau) in Ev.
  destruct (iterate_on dvbin voigt bounded tau realtol Hd HV HB Ht [] mask top Hmask Ev Htop) as (i & Hi & Ei & C).
  assert (i = (length tau / 2)%nat).
  { destruct (Nat.eq_dec i (length tau / 2)) as [|Ne]; [assumption|]. specialize (Hmax i Hi Ne). exfalso.
    unfold left_over, fitted, rsum in Ei. cbn [map fold_right] in Ei. lra. }
  subst i.
  assert (St : stuck voigt tau [] (length tau / 2)).
  { right. apply one_hump_ext with (g := fun i => nth i tau 0); [lia| |assumption]. intros k Hk. unfold seen_from.
    replace (Z.of_nat k + Z.of_nat (length tau / 2) - Z.of_nat (length tau / 2))%Z with (Z.of_nat k) by lia.
    rewrite Z.mod_small by lia. rewrite Nat2Z.id. unfold left_over, fitted, rsum. cbn [map fold_right]. ring. }
  destruct C as [(_ & E)|(N & _)]; [|contradiction]. rewrite residual_nil in E, Ev.
  destruct fuel as [|fuel]; [lia|]. cbn [find_peaks]. rewrite Ev. destruct (Rlt_dec realtol top); [|lra]. rewrite E. reflexivity.
Qed.
