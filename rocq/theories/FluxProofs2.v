(** Proofs about flux PDF and flux power, continued: batches, window, histogram, three dimensions. *)
From Coq Require Import ZArith List Reals Lra Lia Arith Permutation.
From Verif Require Import AbsorptionSpec AbsorptionProofs SnapshotModel SnapshotProofs RescaleModel RescaleSpec RescaleProofs
  FluxModel FluxSpec FluxProofs.
Import ListNotations.
Local Open Scope R_scope.

Lemma pair_inj : forall (A B : Type) (a a' : A) (b b' : B), Some (a, b) = Some (a', b') -> a = a' /\ b = b'.
Proof. intros A B a a' b b' H. split; congruence. Qed.

(** ** Batches *)

Lemma batches_cover : forall A nb (l : list A), (0 < nb)%nat ->
  flat_map (fun i => batch nb i l) (seq 0 nb) = l.
Proof.
  intros A nb l Hnb.
  rewrite (flat_map_ext_in _ _ _ (fun i => slice (i * length l / nb) (S i * length l / nb) l)).
  - rewrite (slices_seq A (fun i => i * length l / nb)%nat).
    + rewrite Nat.mul_0_l, Nat.div_0_l by lia. rewrite Nat.mul_comm, Nat.div_mul by lia. apply slice_all.
    + intros i. apply Nat.div_le_mono; [lia|]. nia.
  - intros i Hi. apply in_seq in Hi. unfold batch. f_equal. replace (i + 1)%nat with (S i) by lia.
    apply Nat.min_l. apply Nat.div_le_upper_bound; [lia|]. nia.
Qed.

Lemma add_lists_map : forall m (g h : nat -> R),
  add_lists (map g (seq 0 m)) (map h (seq 0 m)) = map (fun k => g k + h k) (seq 0 m).
Proof.
  intros m g h. unfold add_lists. generalize (seq 0 m). induction l as [|k l IH]; [reflexivity|].
  cbn [map combine fst snd]. rewrite IH. reflexivity.
Qed.

Lemma batch_fold : forall m vmax (p : list R -> list R) (b : nat -> list (list R)) (idx : list nat) (g : nat -> R),
  fold_left (fun acc i => add_lists acc (map (fun s => vmax * s) (sum_rows m (map p (b i))))) idx (map g (seq 0 m)) =
  map (fun k => g k + vmax * rsum (map (fun r => nth k (p r) 0) (flat_map b idx))) (seq 0 m).
Proof.
  intros m vmax p b. induction idx as [|i idx IH]; intros g; cbn [fold_left flat_map].
  - apply map_ext. intros k. cbn [map]. unfold rsum. cbn [fold_right]. ring.
  - unfold sum_rows at 2. rewrite map_map, add_lists_map, IH. apply map_ext. intros k.
    rewrite map_app, rsum_app, map_map. ring.
Qed.

Lemma map_repeat : forall m, repeat 0 m = map (fun _ : nat => 0) (seq 0 m).
Proof.
  intros m. generalize 0%nat. induction m as [|m IH]; intros a; [reflexivity|]. cbn [repeat seq map]. rewrite <- IH. reflexivity.
Qed.

(** ** The pieces of flux_power *)

Lemma dft_power : forall x k, (dft_re x k ^ 2 + dft_im x k ^ 2) / INR (length x) ^ 2 = mode_power x k.
Proof. intros x k. unfold mode_power, dft_im, dft_re. f_equal. ring. Qed.

Lemma powerspectrum_nth : forall x k, (k < length x / 2 + 1)%nat -> nth k (powerspectrum x) 0 = mode_power x k.
Proof.
  intros x k Hk. unfold powerspectrum.
  set (f := fun k => (dft_re x k ^ 2 + dft_im x k ^ 2) / INR (length x) ^ 2).
  rewrite (nth_indep _ 0 (f 0%nat)) by (rewrite map_length, seq_length; assumption). rewrite (map_nth f).
  rewrite seq_nth by assumption. apply dft_power.
Qed.

Definition contrast (s m : R) (row : list R) : list R := map (fun t => exp (- (s * t)) / m - 1) row.

Lemma contrast_eq : forall s m row, flux_contrast s m row = contrast s m row.
Proof. intros. unfold flux_contrast, contrast. apply map_ext. intros t. f_equal. f_equal. f_equal. ring. Qed.

Lemma scale_and_mean_some : forall parts fuel tau desired s, scaled_by parts fuel tau desired s ->
  scale_and_mean parts fuel tau desired = Some (s, mean_used tau desired).
Proof.
  intros parts fuel tau [m|] s H; unfold scale_and_mean, mean_used, default_tol, default_thresh; cbn [scaled_by] in H.
  - rewrite H. reflexivity.
  - subst s. unfold mean. rewrite map_length. reflexivity.
Qed.

Lemma scale_and_mean_inv : forall parts fuel tau desired s m, scale_and_mean parts fuel tau desired = Some (s, m) ->
  scaled_by parts fuel tau desired s /\ m = mean_used tau desired.
Proof.
  intros parts fuel tau [d|] s m H; unfold scale_and_mean, default_tol, default_thresh in H.
  - destruct (mean_flux parts tau d (/ 100000) (10 ^ 30) fuel) as [[x|]|] eqn:E; try discriminate.
    injection H as -> ->. split; [exact E|reflexivity].
  - injection H as <- <-. split; [reflexivity|]. unfold mean_used, mean. rewrite map_length. reflexivity.
Qed.

Definition plain_power (tau : list (list R)) (s m vmax : R) (k : nat) : R :=
  vmax * mean (map (fun row => mode_power (contrast s m row) k) tau).

Lemma flux_power_value : forall parts fuel tau npix vmax res desired window s,
  tau <> [] -> (0 < npix)%nat -> rectangular npix tau -> scaled_by parts fuel (concat tau) desired s ->
  mean_used (concat tau) desired <> 0 ->
  flux_power parts fuel tau npix vmax res desired window =
  Some (flux_power_bins vmax npix,
        map (fun k => plain_power tau s (mean_used (concat tau) desired) vmax k /
                      (if window then if Rlt_dec 0 res then
                         window_function (INR k / INR npix * (2 * PI * INR npix / vmax)) res (vmax / INR npix) ^ 2
                       else 1 else 1)) (seq 0 (npix / 2 + 1))).
Proof.
  intros parts fuel tau npix vmax res desired window s Ht Hn Hr Hs Hm. unfold flux_power.
  destruct tau as [|row0 tau0] eqn:Et; [congruence|]. rewrite <- Et in *. clear Ht.
  destruct npix as [|np] eqn:En; [lia|]. rewrite <- En in *.
  rewrite (scale_and_mean_some _ _ _ _ _ Hs).
  destruct (Req_EM_T (mean_used (concat tau) desired) 0); [contradiction|]. clear n.
  set (m := mean_used (concat tau) desired) in *.
  assert (Total : fold_left (fun acc i => add_lists acc (map (fun s0 => vmax * s0)
         (sum_rows (npix / 2 + 1) (map powerspectrum (map (flux_contrast s m) (batch 10 i tau))))))
         (seq 0 10) (repeat 0 (npix / 2 + 1)%nat) =
       map (fun k => INR (length tau) * plain_power tau s m vmax k) (seq 0 (npix / 2 + 1))).
  { rewrite map_repeat, batch_fold.
    replace (flat_map (fun i => map (flux_contrast s m) (batch 10 i tau)) (seq 0 10)) with (map (flux_contrast s m) tau).
    2: { rewrite <- (batches_cover _ 10 tau) at 1 by lia. generalize (seq 0 10). clear. induction l as [|i l IH]; [reflexivity|].
         cbn [flat_map]. rewrite map_app, IH. reflexivity. }
    apply map_ext_in. intros k Hk. apply in_seq in Hk. rewrite map_map.
    unfold plain_power, mean. rewrite map_length.
    assert (Hl : 0 < INR (length tau)) by (apply lt_0_INR; rewrite Et; cbn [length]; lia).
    rewrite (rsum_map_ext _ (fun r => nth k (powerspectrum (flux_contrast s m r)) 0) (fun row => mode_power (contrast s m row) k)).
    - field. lra.
    - intros row Hrow. rewrite contrast_eq. apply powerspectrum_nth. unfold rectangular in Hr. rewrite Forall_forall in Hr.
      unfold contrast. rewrite map_length, (Hr row Hrow). lia. }
  assert (Hl : 0 < INR (length tau)) by (apply lt_0_INR; rewrite Et; cbn [length]; lia).
  rewrite Total. rewrite map_map.
  rewrite (map_ext_in (fun k => INR (length tau) * plain_power tau s m vmax k / INR (length tau)) (plain_power tau s m vmax))
    by (intros; field; lra).
  clear Total. unfold flux_power_bins.
  assert (Comb : forall (f g : nat -> R) l, combine (map f l) (map g l) = map (fun k => (f k, g k)) l)
    by (clear; induction l as [|k l IH]; [reflexivity|]; cbn [map combine]; rewrite IH; reflexivity).
  destruct window; [destruct (Rlt_dec 0 res)|].
  - rewrite Comb, map_map. reflexivity.
  - f_equal. f_equal. apply map_ext. intros; field.
  - f_equal. f_equal. apply map_ext. intros; field.
Qed.

Lemma map_seq_nth : forall (f : nat -> R) n k, (k < n)%nat -> nth k (map f (seq 0 n)) 0 = f k.
Proof.
  intros f n k Hk. rewrite (nth_indep _ 0 (f 0%nat)) by (rewrite map_length, seq_length; assumption).
  rewrite (map_nth f), seq_nth by assumption. reflexivity.
Qed.

Lemma C28_average_aux : forall parts fuel tau npix vmax res desired s,
  tau <> [] -> (0 < npix)%nat -> vmax <> 0 -> rectangular npix tau -> scaled_by parts fuel (concat tau) desired s ->
  mean_used (concat tau) desired <> 0 ->
  exists kf power, flux_power parts fuel tau npix vmax res desired false = Some (kf, power) /\
    length kf = (npix / 2 + 1)%nat /\ length power = (npix / 2 + 1)%nat /\
    forall k, (k < npix / 2 + 1)%nat ->
      nth k kf 0 = 2 * PI * INR k / vmax /\
      nth k power 0 = vmax * mean (map (fun row =>
        mode_power (map (fun t => exp (- (s * t)) / mean_used (concat tau) desired - 1) row) k) tau).
Proof.
  intros parts fuel tau npix vmax res desired s Ht Hn Hv Hr Hs Hm.
  rewrite (flux_power_value _ _ _ _ _ _ _ _ s Ht Hn Hr Hs Hm). eexists. eexists. split; [reflexivity|].
  unfold flux_power_bins. rewrite !map_length, !seq_length. split; [reflexivity|]. split; [reflexivity|].
  intros k Hk. rewrite !map_seq_nth by assumption. assert (0 < INR npix) by (apply lt_0_INR; assumption).
  split; [field; lra|]. unfold plain_power, contrast. field.
Qed.

(** ** Window *)

Lemma window_bounds : forall npix vmax res k, (0 < npix)%nat -> 0 < vmax -> (k < npix / 2 + 1)%nat ->
  0 < window_function (2 * PI * INR k / vmax) res (vmax / INR npix) <= 1.
Proof.
  intros npix vmax res k Hn Hv Hk. unfold window_function.
  assert (HN : 0 < INR npix) by (apply lt_0_INR; assumption). pose proof PI_RGT_0 as Hpi.
  replace (2 * PI * INR k / vmax * (vmax / INR npix) / 2 / PI) with (INR k / INR npix) by (field; lra).
  set (e := exp _).
  assert (He : 0 < e <= 1).
  { split; [apply exp_pos|]. unfold e. rewrite <- exp_0 at 2. destruct (Rle_lt_or_eq_dec 0 ((2 * PI * INR k / vmax * (res / (2 * sqrt (2 * ln 2)))) ^ 2) (pow2_ge_0 _)) as [Hp|Hp].
    - left. apply exp_increasing. lra.
    - rewrite <- Hp. right. f_equal. ring. }
  assert (Hs : 0 < sinc (INR k / INR npix) <= 1).
  { unfold sinc. destruct (Req_EM_T (INR k / INR npix) 0) as [|Hne]; [lra|].
    assert (Hk0 : (0 < k)%nat). { destruct k; [|lia]. exfalso. apply Hne. cbn [INR]. field. lra. }
    assert (HK : 0 < INR k) by (apply lt_0_INR; assumption).
    assert (Hx : 0 < INR k / INR npix) by (apply Rdiv_lt_0_compat; assumption).
    assert (Hh : INR k / INR npix <= 1 / 2).
    { apply (Rmult_le_reg_r (INR npix)); [assumption|]. replace (INR k / INR npix * INR npix) with (INR k) by (field; lra).
      assert (2 * k <= npix)%nat. { pose proof (Nat.mul_div_le npix 2 ltac:(lia)). lia. }
      apply le_INR in H. rewrite mult_INR in H. cbn [INR] in H. lra. }
    set (x := INR k / INR npix) in *. assert (0 < PI * x) by (apply Rmult_lt_0_compat; assumption).
    assert (PI * x < PI) by nra.
    split; [apply Rdiv_lt_0_compat; [apply sin_gt_0; assumption|assumption]|].
    apply (Rmult_le_reg_r (PI * x)); [assumption|]. replace (sin (PI * x) / (PI * x) * (PI * x)) with (sin (PI * x)) by (field; lra).
    pose proof (sin_lt_x (PI * x) ltac:(assumption)). lra. }
  split; [apply Rmult_lt_0_compat; apply He || apply Hs|]. nra.
Qed.

Lemma C29_window_aux : forall parts fuel tau npix vmax res desired kf power,
  0 < vmax -> 0 < res -> rectangular npix tau -> flux_power parts fuel tau npix vmax res desired false = Some (kf, power) ->
  exists corrected, flux_power parts fuel tau npix vmax res desired true = Some (kf, corrected) /\
    length corrected = length power /\
    forall k, (k < npix / 2 + 1)%nat -> exists w, 0 < w <= 1 /\ (k = O -> w = 1) /\
      (k <> O -> w = exp (- (2 * PI * INR k / vmax * res) ^ 2 / (16 * ln 2)) *
                     (sin (PI * INR k / INR npix) / (PI * INR k / INR npix))) /\
      nth k corrected 0 = nth k power 0 / w ^ 2.
Proof.
  intros parts fuel tau npix vmax res desired kf power Hv Hres Hr H.
  assert (Ht : tau <> []) by (intros ->; discriminate H).
  assert (Hn : (0 < npix)%nat) by (destruct npix; [destruct tau; discriminate H|lia]).
  assert (Hs : exists s, scaled_by parts fuel (concat tau) desired s /\ mean_used (concat tau) desired <> 0).
  { unfold flux_power in H. destruct tau; [congruence|]. destruct npix; [lia|].
    destruct (scale_and_mean parts fuel (concat (l :: tau)) desired) as [(s, m)|] eqn:E; [|discriminate].
    apply scale_and_mean_inv in E. destruct E as (E & ->). destruct (Req_EM_T _ 0); [discriminate|]. exists s. split; assumption. }
  destruct Hs as (s & Hs & Hm).
  rewrite (flux_power_value _ _ _ _ _ _ _ _ s Ht Hn Hr Hs Hm) in H. apply pair_inj in H. destruct H as (<- & <-).
  rewrite (flux_power_value _ _ _ _ _ _ _ _ s Ht Hn Hr Hs Hm). eexists. split; [reflexivity|].
  split; [rewrite !map_length; reflexivity|]. intros k Hk. rewrite !map_seq_nth by assumption.
  destruct (Rlt_dec 0 res); [|contradiction].
  assert (0 < INR npix) by (apply lt_0_INR; assumption).
  replace (INR k / INR npix * (2 * PI * INR npix / vmax)) with (2 * PI * INR k / vmax) by (field; lra).
  pose proof (window_bounds npix vmax res k Hn Hv Hk) as W.
  exists (window_function (2 * PI * INR k / vmax) res (vmax / INR npix)). split; [assumption|]. split.
  - intros ->. unfold window_function. cbn [INR].
    replace (2 * PI * 0 / vmax * (vmax / INR npix) / 2 / PI) with 0 by (field; pose proof PI_RGT_0; lra).
    unfold sinc. destruct (Req_EM_T 0 0); [|lra].
    replace (2 * PI * 0 / vmax * (res / (2 * sqrt (2 * ln 2)))) with 0 by (unfold Rdiv; ring).
    replace (- (1 / 2) * 0 ^ 2) with 0 by ring. rewrite exp_0. ring.
  - split; [|set (w := window_function _ _ _) in *; field; lra].
    intros Hk0. assert (HK : 0 < INR k) by (apply lt_0_INR; lia). pose proof PI_RGT_0 as Hpi.
    assert (Hl : 0 < ln 2) by (rewrite <- ln_1; apply ln_increasing; lra).
    assert (Hq : 0 < sqrt (2 * ln 2)) by (apply sqrt_lt_R0; lra).
    unfold window_function.
    replace (2 * PI * INR k / vmax * (vmax / INR npix) / 2 / PI) with (INR k / INR npix) by (field; lra).
    unfold sinc. destruct (Req_EM_T (INR k / INR npix) 0) as [E|_].
    { exfalso. assert (0 < INR k / INR npix) by (apply Rdiv_lt_0_compat; assumption). lra. }
    f_equal; [apply f_equal|].
    + assert (Q : sqrt (2 * ln 2) * sqrt (2 * ln 2) = 2 * ln 2) by (apply sqrt_sqrt; lra).
      replace ((2 * PI * INR k / vmax * (res / (2 * sqrt (2 * ln 2)))) ^ 2) with
        ((2 * PI * INR k / vmax * res) ^ 2 / (4 * (sqrt (2 * ln 2) * sqrt (2 * ln 2)))) by (field; lra).
      rewrite Q. field. lra.
    + replace (PI * (INR k / INR npix)) with (PI * INR k / INR npix) by (field; lra). reflexivity.
Qed.

(** ** Consequences for the whole array *)

Lemma mean_nonneg : forall l, (forall x, In x l -> 0 <= x) -> 0 <= mean l.
Proof.
  intros l H. unfold mean. destruct l as [|a l]; [unfold rsum; cbn; lra|].
  apply Rmult_le_pos; [apply rsum_nonneg; assumption|]. apply Rlt_le, Rinv_0_lt_compat, lt_0_INR. cbn. lia.
Qed.

Lemma flux_power_inv : forall parts fuel tau npix vmax res desired window out,
  flux_power parts fuel tau npix vmax res desired window = Some out ->
  tau <> [] /\ (0 < npix)%nat /\
  exists s, scaled_by parts fuel (concat tau) desired s /\ mean_used (concat tau) desired <> 0.
Proof.
  intros parts fuel tau npix vmax res desired window out H. unfold flux_power in H.
  destruct tau as [|r tau]; [discriminate|]. destruct npix as [|np]; [discriminate|].
  split; [discriminate|]. split; [lia|].
  destruct (scale_and_mean parts fuel (concat (r :: tau)) desired) as [(s, m)|] eqn:E; [|discriminate].
  apply scale_and_mean_inv in E. destruct E as (E & ->). destruct (Req_EM_T _ 0); [discriminate|]. exists s. split; assumption.
Qed.

Lemma C29_nonnegative_aux : forall parts fuel tau npix vmax res desired window kf power,
  0 < vmax -> rectangular npix tau -> flux_power parts fuel tau npix vmax res desired window = Some (kf, power) ->
  Forall (fun p => 0 <= p) power.
Proof.
  intros parts fuel tau npix vmax res desired window kf power Hv Hr H.
  destruct (flux_power_inv _ _ _ _ _ _ _ _ _ H) as (Ht & Hn & s & Hs & Hm).
  rewrite (flux_power_value _ _ _ _ _ _ _ _ s Ht Hn Hr Hs Hm) in H. apply pair_inj in H. destruct H as (<- & <-).
  apply Forall_forall. intros p Hp. apply in_map_iff in Hp. destruct Hp as (k & <- & Hk). apply in_seq in Hk.
  assert (HN : 0 < INR npix) by (apply lt_0_INR; assumption).
  apply Rmult_le_pos.
  - unfold plain_power. apply Rmult_le_pos; [lra|]. apply mean_nonneg. intros x Hx. apply in_map_iff in Hx.
    destruct Hx as (row & <- & Hrow). apply mode_power_nonneg. unfold contrast. rewrite map_length.
    unfold rectangular in Hr. rewrite Forall_forall in Hr. rewrite (Hr row Hrow). assumption.
  - apply Rlt_le, Rinv_0_lt_compat. destruct window; [destruct (Rlt_dec 0 res)|]; try lra.
    apply pow_lt. replace (INR k / INR npix * (2 * PI * INR npix / vmax)) with (2 * PI * INR k / vmax) by (field; lra).
    apply window_bounds; [assumption|assumption|lia].
Qed.

Lemma rotated_perm : forall k x y, rotated k x y -> Permutation x y.
Proof.
  intros k x y (L & H).
  assert (Ex : map (fun j => nth j y 0) (map (place (length x) k) (seq 0 (length x))) = x).
  { apply nth_ext with (d := 0) (d' := 0); rewrite !map_length, seq_length; [reflexivity|]. intros j Hj.
    rewrite map_map. rewrite map_seq_nth by assumption.
    specialize (H (Z.of_nat j) ltac:(lia)). rewrite Nat2Z.id in H. exact H. }
  assert (Ey : map (fun j => nth j y 0) (seq 0 (length x)) = y).
  { apply nth_ext with (d := 0) (d' := 0); rewrite !map_length, seq_length; [assumption|]. intros j Hj.
    apply map_seq_nth. assumption. }
  pose proof (Permutation_map (fun j => nth j y 0) (place_perm (length x) k)) as P. rewrite Ex, Ey in P. exact P.
Qed.

Lemma shifted_concat : forall a b, all_shifted a b -> Permutation (concat a) (concat b).
Proof.
  induction 1 as [|x y a b (k & H) _ IH]; [constructor|]. cbn [concat]. apply Permutation_app; [|assumption].
  apply (rotated_perm k). assumption.
Qed.

Lemma rotated_map : forall k x y (f : R -> R), rotated k x y -> rotated k (map f x) (map f y).
Proof.
  intros k x y f (L & H). split; [rewrite !map_length; assumption|]. rewrite map_length. intros j Hj.
  pose proof (Z.mod_pos_bound (j + k) (Z.of_nat (length x)) ltac:(lia)).
  rewrite (nth_indep (map f y) 0 (f 0)) by (rewrite map_length; lia).
  rewrite (nth_indep (map f x) 0 (f 0)) by (rewrite map_length; lia).
  rewrite !map_nth. f_equal. apply H. assumption.
Qed.

Lemma mean_perm : forall a b, Permutation a b -> mean a = mean b.
Proof. intros a b P. unfold mean. rewrite (rsum_perm _ _ P), (Permutation_length P). reflexivity. Qed.

Lemma scaled_by_perm : forall parts parts' fuel tau tau' desired s, tau <> [] -> divided tau parts -> divided tau' parts' ->
  Permutation tau tau' -> scaled_by parts fuel tau desired s -> scaled_by parts' fuel tau' desired s.
Proof.
  intros parts parts' fuel tau tau' [m|] s Hne D D' P H; cbn [scaled_by] in *; [|assumption].
  rewrite <- H. symmetry. apply C16_aux; try assumption.
  - intros ->. apply Hne. apply Permutation_nil. apply Permutation_sym. assumption.
  - unfold unmasked. clear - P. induction P; cbn [filter].
    + constructor.
    + destruct (Rle_dec x (10 ^ 30)); [constructor|]; assumption.
    + destruct (Rle_dec x (10 ^ 30)), (Rle_dec y (10 ^ 30)); try constructor; apply Permutation_refl.
    + eapply Permutation_trans; eassumption.
Qed.

Lemma mean_used_perm : forall tau tau' desired, Permutation tau tau' -> mean_used tau desired = mean_used tau' desired.
Proof. intros tau tau' [m|] P; cbn [mean_used]; [reflexivity|]. apply mean_perm, Permutation_map. assumption. Qed.

Lemma option_ext : forall (A : Type) (x y : option A), (forall v, x = Some v -> y = Some v) -> (forall v, y = Some v -> x = Some v) -> x = y.
Proof.
  intros A [v|] y H1 H2; [symmetry; apply H1; reflexivity|]. destruct y as [w|]; [apply H2|]; reflexivity.
Qed.

Lemma same_power : forall parts parts' fuel tau tau' npix vmax res desired window out,
  rectangular npix tau -> rectangular npix tau' -> tau' <> [] ->
  divided (concat tau) parts -> divided (concat tau') parts' -> Permutation (concat tau) (concat tau') ->
  (forall s m k, plain_power tau s m vmax k = plain_power tau' s m vmax k) ->
  flux_power parts fuel tau npix vmax res desired window = Some out ->
  flux_power parts' fuel tau' npix vmax res desired window = Some out.
Proof.
  intros parts parts' fuel tau tau' npix vmax res desired window out Hr Hr' Ht' D D' P Hp H.
  destruct (flux_power_inv _ _ _ _ _ _ _ _ _ H) as (Ht & Hn & s & Hs & Hm).
  rewrite (flux_power_value _ _ _ _ _ _ _ _ s Ht Hn Hr Hs Hm) in H. rewrite <- H.
  assert (Hne : concat tau <> []).
  { destruct tau as [|r tau]; [congruence|]. inversion Hr as [|? ? Hl]; subst. destruct r; [cbn in Hn; lia|]. discriminate. }
  pose proof (scaled_by_perm _ _ _ _ _ _ _ Hne D D' P Hs) as Hs'.
  rewrite (flux_power_value parts' fuel tau' npix vmax res desired window s Ht' Hn Hr' Hs').
  - f_equal. f_equal. apply map_ext. intros k. rewrite <- (mean_used_perm _ _ desired P). rewrite Hp. reflexivity.
  - rewrite <- (mean_used_perm _ _ desired P). assumption.
Qed.

Lemma shifted_plain : forall tau tau' npix s m vmax k, (0 < npix)%nat -> rectangular npix tau -> all_shifted tau tau' ->
  plain_power tau s m vmax k = plain_power tau' s m vmax k.
Proof.
  intros tau tau' npix s m vmax k Hn Hr H. unfold plain_power. f_equal. f_equal.
  induction H as [|x y a b (q & H) _ IH]; [reflexivity|]. inversion Hr; subst. cbn [map]. f_equal; [|apply IH; assumption].
  symmetry. apply (shift_power _ _ q); [unfold contrast; rewrite map_length; assumption|]. apply rotated_map. assumption.
Qed.

Lemma shifted_rect : forall n a b, rectangular n a -> all_shifted a b -> rectangular n b.
Proof.
  intros n a b Hr H. induction H as [|x y a b (q & L & H) _ IH]; [constructor|]. inversion Hr; subst.
  constructor; [symmetry; assumption|]. apply IH. assumption.
Qed.

Lemma rotated_sym : forall k x y, rotated k x y -> rotated (- k) y x.
Proof.
  intros k x y (L & H). split; [symmetry; assumption|]. rewrite <- L. intros j Hj.
  set (n := Z.of_nat (length x)) in *.
  pose proof (Z.mod_pos_bound (j + - k) n ltac:(lia)) as B.
  specialize (H ((j + - k) mod n)%Z B).
  replace (((j + - k) mod n + k) mod n)%Z with j in H; [congruence|].
  rewrite Zplus_mod_idemp_l. replace (j + - k + k)%Z with j by lia. symmetry. apply Z.mod_small. assumption.
Qed.

Lemma shifted_sym : forall a b, all_shifted a b -> all_shifted b a.
Proof.
  induction 1 as [|x y a b (k & H) _ IH]; constructor; [|assumption]. exists (- k)%Z. apply rotated_sym. assumption.
Qed.

Lemma C29_shift_aux : forall parts parts' fuel tau tau' npix vmax res desired window,
  (0 < npix)%nat -> rectangular npix tau -> all_shifted tau tau' ->
  divided (concat tau) parts -> divided (concat tau') parts' ->
  flux_power parts fuel tau npix vmax res desired window = flux_power parts' fuel tau' npix vmax res desired window.
Proof.
  intros parts parts' fuel tau tau' npix vmax res desired window Hn Hr Hs D D'.
  pose proof (shifted_rect _ _ _ Hr Hs) as Hr'.
  apply option_ext; intros out H.
  - apply (same_power parts parts' fuel tau tau'); try assumption.
    + intros ->. inversion Hs; subst. discriminate H.
    + apply shifted_concat. assumption.
    + intros. apply (shifted_plain _ _ npix); assumption.
  - apply (same_power parts' parts fuel tau' tau); try assumption.
    + intros ->. inversion Hs; subst. discriminate H.
    + apply Permutation_sym, shifted_concat. assumption.
    + intros. symmetry. apply (shifted_plain _ _ npix); assumption.
Qed.

Lemma C29_order_aux : forall parts parts' fuel tau tau' npix vmax res desired window,
  (0 < npix)%nat -> rectangular npix tau -> Permutation tau tau' ->
  divided (concat tau) parts -> divided (concat tau') parts' ->
  flux_power parts fuel tau npix vmax res desired window = flux_power parts' fuel tau' npix vmax res desired window.
Proof.
  intros parts parts' fuel tau tau' npix vmax res desired window Hn Hr Hs D D'.
  assert (Hr' : rectangular npix tau') by (unfold rectangular in *; eapply Permutation_Forall; eassumption).
  assert (Hp : forall s m k, plain_power tau s m vmax k = plain_power tau' s m vmax k)
    by (intros; unfold plain_power; f_equal; apply mean_perm, Permutation_map; assumption).
  assert (Pc : Permutation (concat tau) (concat tau')).
  { clear - Hs. induction Hs; cbn [concat].
    - constructor.
    - apply Permutation_app_head. assumption.
    - rewrite !app_assoc. apply Permutation_app_tail, Permutation_app_comm.
    - eapply Permutation_trans; eassumption. }
  apply option_ext; intros out H.
  - apply (same_power parts parts' fuel tau tau'); try assumption.
    intros ->. apply Permutation_sym, Permutation_nil in Hs. subst. discriminate H.
  - apply (same_power parts' parts fuel tau' tau); try assumption.
    + intros ->. apply Permutation_nil in Hs. subst. discriminate H.
    + apply Permutation_sym. assumption.
    + intros. symmetry. apply Hp.
Qed.

Lemma C29_parseval_aux : forall parts fuel tau npix vmax res desired s kf power,
  0 < vmax -> rectangular npix tau -> scaled_by parts fuel (concat tau) desired s ->
  flux_power parts fuel tau npix vmax res desired false = Some (kf, power) ->
  rsum (map (fun k => multiplicity npix k * nth k power 0) (seq 0 (npix / 2 + 1))) =
    vmax * mean (map (fun t => (exp (- (s * t)) / mean_used (concat tau) desired - 1) ^ 2) (concat tau)) /\
  nth 0 power 0 = vmax * mean (map (fun row =>
    mean (map (fun t => exp (- (s * t)) / mean_used (concat tau) desired - 1) row) ^ 2) tau).
Proof.
  intros parts fuel tau npix vmax res desired s kf power Hv Hr Hs H.
  destruct (flux_power_inv _ _ _ _ _ _ _ _ _ H) as (Ht & Hn & s' & Hs' & Hm). clear s' Hs'.
  rewrite (flux_power_value _ _ _ _ _ _ _ _ s Ht Hn Hr Hs Hm) in H. apply pair_inj in H. destruct H as (<- & <-).
  set (m := mean_used (concat tau) desired) in *.
  assert (HN : 0 < INR npix) by (apply lt_0_INR; assumption).
  assert (HT : 0 < INR (length tau)) by (apply lt_0_INR; destruct tau; [congruence|cbn; lia]).
  unfold rectangular in Hr. rewrite Forall_forall in Hr.
  split.
  - rewrite (rsum_map_ext _ _ (fun k => vmax / INR (length tau) *
      rsum (map (fun row => multiplicity npix k * mode_power (contrast s m row) k) tau))).
    2: { intros k Hk. apply in_seq in Hk. rewrite map_seq_nth by lia. unfold plain_power, mean. rewrite map_length, rsum_map_scal. field. lra. }
    rewrite rsum_map_scal, rsum_swap.
    rewrite (rsum_map_ext _ _ (fun row => / INR npix * rsum (map (fun t => (exp (- (s * t)) / m - 1) ^ 2) row))).
    2: { intros row Hrow. assert (Lc : length (contrast s m row) = npix) by (unfold contrast; rewrite map_length; apply Hr; assumption).
         pose proof (parseval_half (contrast s m row)) as P. rewrite Lc in P. specialize (P Hn). rewrite P.
         unfold mean. rewrite map_length, Lc. unfold contrast. rewrite map_map. unfold Rdiv. ring. }
    rewrite rsum_map_scal. unfold mean. rewrite map_length.
    assert (Len : INR (length (concat tau)) = INR npix * INR (length tau)).
    { clear - Hr. induction tau as [|r tau IH]; [cbn; ring|]. cbn [concat length]. rewrite app_length, plus_INR, IH.
      - rewrite (Hr r (or_introl eq_refl)), S_INR. ring.
      - intros x Hx. apply Hr. right. assumption. }
    rewrite Len. rewrite concat_map.
    assert (RC : forall (g : R -> R) l, rsum (concat (map (map g) l)) = rsum (map (fun row => rsum (map g row)) l)).
    { clear. intros g. induction l as [|r l IH]; [reflexivity|]. cbn [map concat]. rewrite rsum_app, IH. reflexivity. }
    rewrite RC. field. lra.
  - rewrite map_seq_nth by lia. unfold plain_power. unfold Rdiv at 1. rewrite Rinv_1, Rmult_1_r. f_equal. f_equal.
    apply map_ext_in. intros row Hrow. apply mode_power_zero. unfold contrast. rewrite map_length, (Hr row Hrow). assumption.
Qed.
