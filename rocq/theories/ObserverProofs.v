(** Proofs about observed lines, smoothing and equivalent widths. *)
From Coq Require Import ZArith List Reals Arith Lra Lia Permutation Bool.
From Flocq Require Import Core.Raux.
From Verif Require Import AbsorptionSpec AbsorptionProofs SightlineModel SightlineProofs FluxProofs FluxProofs2.
From Verif Require Import ObserverModel ObserverSpec.
Import ListNotations.
Local Open Scope R_scope.

(** ** Smoothing *)

Lemma zsum_map_ext : forall M f g, (forall k, f k = g k) -> zsum M f = zsum M g.
Proof. intros. unfold zsum. apply rsum_map_ext. intros. apply H. Qed.

Lemma zsum_scal : forall M c f, zsum M (fun k => c * f k) = c * zsum M f.
Proof. intros. unfold zsum. apply rsum_map_scal. Qed.

Lemma zsum_plus : forall M f g, zsum M (fun k => f k + g k) = zsum M f + zsum M g.
Proof. intros. unfold zsum. apply rsum_map_plus. Qed.

Lemma rsum_pos : forall l, l <> [] -> (forall x, In x l -> 0 < x) -> 0 < rsum l.
Proof.
  intros [|x l] Hne H; [congruence|]. cbn [rsum fold_right]. pose proof (H x (or_introl eq_refl)).
  pose proof (rsum_nonneg l (fun y Hy => Rlt_le _ _ (H y (or_intror Hy)))). unfold rsum in *. lra.
Qed.

Lemma rsum_map_le : forall (A : Type) (f g : A -> R) l, (forall x, In x l -> f x <= g x) -> rsum (map f l) <= rsum (map g l).
Proof.
  intros A f g l H. induction l as [|x l IH]; [cbn; lra|]. cbn [map rsum fold_right].
  pose proof (H x (or_introl eq_refl)). assert (rsum (map f l) <= rsum (map g l)) by (apply IH; intros; apply H; right; assumption).
  unfold rsum in *. lra.
Qed.

Lemma zsum_pos : forall M f, (forall k, 0 < f k) -> 0 < zsum M f.
Proof.
  intros M f H. apply rsum_pos.
  - intros E. apply (f_equal (@length R)) in E. rewrite map_length, seq_length in E. cbn in E. lia.
  - intros x Hx. apply in_map_iff in Hx. destruct Hx as (i & <- & _). apply H.
Qed.

Lemma zsum_le : forall M f g, (forall k, f k <= g k) -> zsum M f <= zsum M g.
Proof. intros. unfold zsum. apply rsum_map_le. intros. apply H. Qed.

Lemma weight_pos : forall sigma k, 0 < weight sigma k.
Proof.
  intros. unfold weight. apply Rdiv_lt_0_compat; [apply exp_pos|]. apply zsum_pos. intros. apply exp_pos.
Qed.

Lemma weight_total : forall sigma, zsum (radius sigma) (weight sigma) = 1.
Proof.
  intros. pose proof (zsum_pos (radius sigma) (raw_weight sigma) ltac:(intros; apply exp_pos)) as P.
  rewrite (zsum_map_ext _ _ (fun k => / zsum (radius sigma) (raw_weight sigma) * raw_weight sigma k)).
  - rewrite zsum_scal. field. lra.
  - intros. unfold weight, Rdiv. ring.
Qed.

Lemma filter_length : forall s l, length (gaussian_filter s l) = length l.
Proof. intros. unfold gaussian_filter. rewrite map_length, seq_length. reflexivity. Qed.

Lemma filter_nth : forall s l i, (i < length l)%nat -> nth i (gaussian_filter s l) 0 =
  zsum (radius s) (fun k => weight s k * nth (Z.to_nat ((Z.of_nat i + k) mod Z.of_nat (length l))) l 0).
Proof. intros. unfold gaussian_filter. rewrite map_seq_nth by assumption. reflexivity. Qed.

Lemma index_mod : forall n z, (0 < n)%nat -> (Z.to_nat (z mod Z.of_nat n) < n)%nat.
Proof. intros n z H. pose proof (Z.mod_pos_bound z (Z.of_nat n) ltac:(lia)). lia. Qed.

Definition rot (k : Z) (l : list R) : list R :=
  map (fun i => nth (Z.to_nat ((Z.of_nat i + k) mod Z.of_nat (length l))) l 0) (seq 0 (length l)).

Lemma rot_rotated : forall k l, rotated k (rot k l) l.
Proof.
  intros k l. assert (L : length (rot k l) = length l) by (unfold rot; rewrite map_length, seq_length; reflexivity).
  split; [assumption|]. intros j Hj. rewrite L in *. unfold rot at 1. rewrite map_seq_nth by lia. rewrite Z2Nat.id by lia. reflexivity.
Qed.

Lemma filter_total : forall s l, rsum (gaussian_filter s l) = rsum l.
Proof.
  intros s l. unfold gaussian_filter, zsum. rewrite rsum_swap.
  rewrite (rsum_map_ext _ _ (fun b => rsum l * weight s (Z.of_nat b - Z.of_nat (radius s)))).
  - rewrite rsum_map_scal. fold (zsum (radius s) (weight s)). rewrite weight_total. ring.
  - intros b _. rewrite rsum_map_scal. rewrite Rmult_comm. f_equal.
    apply rsum_perm. apply (rotated_perm (Z.of_nat b - Z.of_nat (radius s))). apply rot_rotated.
Qed.

Lemma filter_bounds : forall s l lo hi, (forall x, In x l -> lo <= x <= hi) ->
  forall x, In x (gaussian_filter s l) -> lo <= x <= hi.
Proof.
  intros s l lo hi H x Hx. apply In_nth with (d := 0) in Hx. destruct Hx as (i & Hi & <-). rewrite filter_length in Hi.
  rewrite filter_nth by assumption.
  assert (P : forall k, lo <= nth (Z.to_nat ((Z.of_nat i + k) mod Z.of_nat (length l))) l 0 <= hi).
  { intros k. apply H, nth_In, index_mod. lia. }
  pose proof (weight_total s) as W. split.
  - rewrite <- (Rmult_1_r lo), <- W, <- zsum_scal. apply zsum_le. intros k. rewrite Rmult_comm.
    apply Rmult_le_compat_l; [apply Rlt_le, weight_pos|apply P].
  - rewrite <- (Rmult_1_r hi), <- W, <- zsum_scal. apply zsum_le. intros k. rewrite (Rmult_comm hi).
    apply Rmult_le_compat_l; [apply Rlt_le, weight_pos|apply P].
Qed.

Lemma filter_rotated : forall s k a b, rotated k a b -> rotated k (gaussian_filter s a) (gaussian_filter s b).
Proof.
  intros s k a b (L & H). split; [rewrite !filter_length; assumption|]. rewrite filter_length. intros j Hj.
  assert (Hn : (0 < length a)%nat) by lia.
  rewrite !filter_nth by (rewrite <- ?L; try apply index_mod; lia). apply zsum_map_ext. intros m. f_equal.
  rewrite <- L. rewrite !Z2Nat.id by (try lia; apply Z.mod_pos_bound; lia).
  rewrite <- (H ((j + m) mod Z.of_nat (length a))%Z) by (apply Z.mod_pos_bound; lia). f_equal. f_equal.
  rewrite Zplus_mod_idemp_l, Zplus_mod_idemp_l. f_equal. lia.
Qed.

Lemma filter_linear : forall s c a b, length a = length b ->
  gaussian_filter s (map (fun p => fst p + c * snd p) (combine a b)) =
  map (fun p => fst p + c * snd p) (combine (gaussian_filter s a) (gaussian_filter s b)).
Proof.
  intros s c a b L. set (f := fun p : R * R => fst p + c * snd p).
  assert (Lf : length (map f (combine a b)) = length a) by (rewrite map_length, combine_length; lia).
  assert (Nf : forall x y i, length x = length y -> (i < length x)%nat -> nth i (map f (combine x y)) 0 = nth i x 0 + c * nth i y 0).
  { intros x y i Lxy Hi. rewrite (nth_indep _ 0 (f (0, 0))) by (rewrite map_length, combine_length; lia).
    rewrite map_nth, combine_nth by assumption. reflexivity. }
  apply nth_ext with (d := 0) (d' := 0).
  - rewrite filter_length, Lf, map_length, combine_length, !filter_length. lia.
  - intros i Hi. rewrite filter_length, Lf in Hi. rewrite filter_nth by lia.
    rewrite Nf by (rewrite !filter_length; lia). rewrite !filter_nth by lia. rewrite <- zsum_scal, <- zsum_plus.
    apply zsum_map_ext. intros k. rewrite Lf, <- L. rewrite Nf by (try assumption; apply index_mod; lia). ring.
Qed.

Lemma sigma_pos : forall dvbin fwhm, 0 < dvbin -> 0 < fwhm -> 0 < res_sigma dvbin fwhm.
Proof.
  intros. unfold res_sigma. apply Rdiv_lt_0_compat; [apply Rdiv_lt_0_compat; assumption|].
  assert (0 < ln 2) by (rewrite <- ln_1; apply ln_increasing; lra). assert (0 < sqrt (2 * ln 2)) by (apply sqrt_lt_R0; lra). lra.
Qed.

Lemma res_corr_some : forall dvbin fwhm l, 0 < dvbin -> 0 < fwhm ->
  res_corr dvbin fwhm l = Some (gaussian_filter (res_sigma dvbin fwhm) l).
Proof.
  intros. unfold res_corr. destruct (Req_EM_T dvbin 0); [lra|]. destruct (Rlt_dec _ _) as [|n0]; [reflexivity|].
  exfalso. apply n0. apply sigma_pos; assumption.
Qed.

Lemma C54_conserved_aux : forall dvbin fwhm l, 0 < dvbin -> 0 < fwhm ->
  exists out, res_corr dvbin fwhm l = Some out /\ length out = length l /\ rsum out = rsum l /\
    forall lo hi, (forall x, In x l -> lo <= x <= hi) -> forall x, In x out -> lo <= x <= hi.
Proof.
  intros. eexists. split; [apply res_corr_some; assumption|]. split; [apply filter_length|]. split; [apply filter_total|].
  apply filter_bounds.
Qed.

Lemma C54_shift_aux : forall dvbin fwhm k a b a' b', rotated k a b ->
  res_corr dvbin fwhm a = Some a' -> res_corr dvbin fwhm b = Some b' -> rotated k a' b'.
Proof.
  intros dvbin fwhm k a b a' b' H Ha Hb. unfold res_corr in *. destruct (Req_EM_T dvbin 0); [discriminate|].
  destruct (Rlt_dec 0 (res_sigma dvbin fwhm)); [|discriminate].
  injection Ha as <-. injection Hb as <-. apply filter_rotated. assumption.
Qed.

Lemma C54_linear_aux : forall dvbin fwhm c a b a' b', length a = length b ->
  res_corr dvbin fwhm a = Some a' -> res_corr dvbin fwhm b = Some b' ->
  res_corr dvbin fwhm (map (fun p => fst p + c * snd p) (combine a b)) = Some (map (fun p => fst p + c * snd p) (combine a' b')).
Proof.
  intros dvbin fwhm c a b a' b' L Ha Hb. unfold res_corr in *. destruct (Req_EM_T dvbin 0); [discriminate|].
  destruct (Rlt_dec 0 (res_sigma dvbin fwhm)); [|discriminate].
  injection Ha as <-. injection Hb as <-. rewrite filter_linear by assumption. reflexivity.
Qed.

(** ** Choosing a line *)

Lemma fold_Rmin : forall l x, In (fold_left Rmin l x) (x :: l) /\ forall y, In y (x :: l) -> fold_left Rmin l x <= y.
Proof.
  intros l; induction l as [|z l IH]; intros x; cbn [fold_left].
  - split; [left; auto|]. intros y [<-|[]]. lra.
  - destruct (IH (Rmin x z)) as [I1 I2]. split.
    + destruct I1 as [E|I1]; [|right; right; auto]. rewrite <- E.
      unfold Rmin. destruct (Rle_dec x z); [left|right; left]; auto.
    + pose proof (Rmin_l x z). pose proof (Rmin_r x z). pose proof (I2 (Rmin x z) (or_introl eq_refl)).
      intros y [<-|[<-|Hy]]; [lra|lra|apply I2; right; assumption].
Qed.

Lemma row_max_some : forall l, l <> [] -> exists m, row_max l = Some m /\ largest m l.
Proof.
  intros [|x l] H; [congruence|]. eexists. split; [reflexivity|]. apply fold_Rmax.
Qed.

Lemma row_min_some : forall l, l <> [] -> exists m, row_min l = Some m /\ In m l /\ forall x, In x l -> m <= x.
Proof.
  intros [|x l] H; [congruence|]. eexists. split; [reflexivity|]. apply fold_Rmin.
Qed.

Lemma where_equal_spec : forall v l, In v l -> exists k, where_equal v l = Some k /\ (k < length l)%nat /\ nth k l 0 = v /\
  forall i, (i < length l)%nat -> nth i l 0 = v -> (k <= i)%nat.
Proof.
  intros v l. induction l as [|x l IH]; intros H; [contradiction|]. cbn [where_equal].
  destruct (Req_EM_T x v) as [->|Hne].
  - exists O. split; [reflexivity|]. split; [cbn; lia|]. split; [reflexivity|]. intros; lia.
  - destruct IH as (k & E & Hk & Ek & Hm); [destruct H; [congruence|assumption]|].
    rewrite E. exists (S k). split; [reflexivity|]. split; [cbn; lia|]. split; [exact Ek|].
    intros [|i] Hi Ei; [cbn in Ei; congruence|]. cbn in Hi, Ei. specialize (Hm i ltac:(lia) Ei). lia.
Qed.

Lemma nonempty_length : forall (l : list R), negb (Nat.eqb (length l) 0) = true -> l <> [].
Proof. intros [|x l] H; [discriminate|discriminate]. Qed.

Lemma empty_length : forall (l : list R), negb (Nat.eqb (length l) 0) = false -> l = [].
Proof. intros [|x l] H; [reflexivity|discriminate]. Qed.

Lemma choose_line_spec : forall peaks, peaks <> [] -> exists k, choose_line peaks = Some k /\ best_line peaks k.
Proof.
  intros peaks Hne. unfold choose_line.
  set (ind := filter (fun x => if Rlt_dec x 3 then if Rlt_dec (/ 10) x then true else false else false) peaks).
  set (ind2 := filter (fun x => if Rlt_dec (/ 10) x then true else false) peaks).
  assert (I1 : forall x, In x ind <-> In x peaks /\ usable x).
  { intros x. unfold ind. rewrite filter_In. unfold usable. destruct (Rlt_dec x 3), (Rlt_dec (/ 10) x); intuition (try lra; try discriminate). }
  assert (I2 : forall x, In x ind2 <-> In x peaks /\ visible x).
  { intros x. unfold ind2. rewrite filter_In. unfold visible. destruct (Rlt_dec (/ 10) x); intuition (try lra; try discriminate). }
  assert (Uv : forall x, usable x -> visible x) by (unfold usable, visible; tauto).
  destruct (negb (length ind =? 0)%nat) eqn:E1.
  - apply nonempty_length in E1. destruct (row_max_some ind E1) as (v & Ev & Hin & Hmax).
    unfold where_max. rewrite Ev. apply I1 in Hin. destruct Hin as (Hin & Hu).
    destruct (where_equal_spec v peaks Hin) as (k & Ek & Hk & Nk & Hf). exists k. split; [assumption|].
    assert (W : forall i, (i < length peaks)%nat -> usable (nth i peaks 0) -> nth i peaks 0 <= nth k peaks 0).
    { intros i Hi Ui. rewrite Nk. apply Hmax, I1. split; [apply nth_In; assumption|assumption]. }
    split.
    + split; [assumption|]. left. rewrite Nk in *. split; assumption.
    + intros i (Hi & [(Ui & Mi)|[(No & _)|(No & _)]]).
      * apply Hf; [assumption|]. apply Rle_antisym; [rewrite <- Nk; apply W; assumption|]. rewrite <- Nk. apply Mi; [assumption|rewrite Nk; assumption].
      * exfalso. apply (No k Hk). rewrite Nk. assumption.
      * exfalso. apply (No k Hk). rewrite Nk. auto.
  - apply empty_length in E1.
    assert (NoU : forall i, (i < length peaks)%nat -> ~ usable (nth i peaks 0)).
    { intros i Hi Hu. assert (In (nth i peaks 0) ind) by (apply I1; split; [apply nth_In|]; assumption). rewrite E1 in H. contradiction. }
    destruct (negb (length ind2 =? 0)%nat) eqn:E2.
    + apply nonempty_length in E2. destruct (row_min_some ind2 E2) as (v & Ev & Hin & Hmin).
      unfold where_min. rewrite Ev. apply I2 in Hin. destruct Hin as (Hin & Hu).
      destruct (where_equal_spec v peaks Hin) as (k & Ek & Hk & Nk & Hf). exists k. split; [assumption|].
      assert (W : forall i, (i < length peaks)%nat -> visible (nth i peaks 0) -> nth k peaks 0 <= nth i peaks 0).
      { intros i Hi Ui. rewrite Nk. apply Hmin, I2. split; [apply nth_In; assumption|assumption]. }
      split.
      * split; [assumption|]. right. left. split; [assumption|]. rewrite Nk in *. split; assumption.
      * intros i (Hi & [(Ui & _)|[(_ & Vi & Mi)|(No & _)]]).
        -- exfalso. apply (NoU i Hi). assumption.
        -- apply Hf; [assumption|]. apply Rle_antisym; [rewrite <- Nk; apply Mi; [assumption|rewrite Nk; assumption]|]. rewrite <- Nk. apply W; assumption.
        -- exfalso. apply (No k Hk). rewrite Nk. auto.
    + apply empty_length in E2.
      assert (NoV : forall i, (i < length peaks)%nat -> ~ visible (nth i peaks 0)).
      { intros i Hi Hu. assert (In (nth i peaks 0) ind2) by (apply I2; split; [apply nth_In|]; assumption). rewrite E2 in H. contradiction. }
      destruct (row_max_some peaks Hne) as (v & Ev & Hin & Hmax). unfold where_max. rewrite Ev.
      destruct (where_equal_spec v peaks Hin) as (k & Ek & Hk & Nk & Hf). exists k. split; [assumption|].
      split.
      * split; [assumption|]. right. right. split; [assumption|]. intros i Hi. rewrite Nk. apply Hmax, nth_In. assumption.
      * intros i (Hi & [(Ui & _)|[(_ & Vi & _)|(_ & Mi)]]).
        -- exfalso. apply (NoU i Hi). assumption.
        -- exfalso. apply (NoV i Hi). assumption.
        -- apply Hf; [assumption|]. apply Rle_antisym; [apply Hmax, nth_In; assumption|]. rewrite <- Nk. apply Mi. assumption.
Qed.

Lemma all_some_map : forall (A B : Type) (f : A -> option B) (g : A -> B) l, (forall x, In x l -> f x = Some (g x)) -> all_some (map f l) = Some (map g l).
Proof.
  intros A B f g l H. induction l as [|x l IH]; [reflexivity|]. cbn [map all_some].
  rewrite (H x (or_introl eq_refl)), IH; [reflexivity|]. intros; apply H; right; assumption.
Qed.

Lemma all_some_exists : forall (A B : Type) (f : A -> option B) (P : A -> B -> Prop) l, (forall x, In x l -> exists y, f x = Some y /\ P x y) ->
  exists out, all_some (map f l) = Some out /\ Forall2 P l out.
Proof.
  intros A B f P l H. induction l as [|x l IH]; [exists []; split; [reflexivity|constructor]|].
  destruct (H x (or_introl eq_refl)) as (y & Ey & Py). destruct IH as (out & E & F); [intros; apply H; right; assumption|].
  exists (y :: out). cbn [map all_some]. rewrite Ey, E. split; [reflexivity|constructor; assumption].
Qed.

Lemma Forall2_nth_both : forall (A B : Type) (P : A -> B -> Prop) la lb, Forall2 P la lb -> forall i da db, (i < length la)%nat -> P (nth i la da) (nth i lb db).
Proof.
  intros A B P la lb F. induction F as [|a b la lb H _ IH]; intros i da db Hi; [cbn in Hi; lia|].
  destruct i as [|i]; [exact H|]. cbn. apply IH. cbn in Hi. lia.
Qed.

Lemma Forall2_len : forall (A B : Type) (P : A -> B -> Prop) la lb, Forall2 P la lb -> length la = length lb.
Proof. intros A B P la lb F. induction F; cbn; congruence. Qed.

Lemma C24_choice_aux : forall dvbin fwhm numlos tau, 0 < dvbin -> 0 < fwhm -> tau <> [] ->
  (forall j ii, (j < length tau)%nat -> (ii < numlos)%nat -> nth ii (nth j tau []) [] <> []) ->
  exists out, observer_tau dvbin fwhm numlos tau = Some out /\ length out = numlos /\
    forall ii, (ii < numlos)%nat -> exists peaks k,
      length peaks = length tau /\
      (forall j, (j < length tau)%nat -> exists smoothed,
         res_corr dvbin fwhm (nth ii (nth j tau []) []) = Some smoothed /\ largest (nth j peaks 0) smoothed) /\
      best_line peaks k /\ nth ii out [] = nth ii (nth k tau []) [].
Proof.
  intros dvbin fwhm numlos tau Hd Hf Hne Hrows.
  set (P := fun ii row => exists peaks k,
      length peaks = length tau /\
      (forall j, (j < length tau)%nat -> exists smoothed,
         res_corr dvbin fwhm (nth ii (nth j tau []) []) = Some smoothed /\ largest (nth j peaks 0) smoothed) /\
      best_line peaks k /\ row = nth ii (nth k tau []) []).
  destruct (all_some_exists nat (list R) (observer_row dvbin fwhm tau) P (seq 0 numlos)) as (out & E & F).
  { intros ii Hii. apply in_seq in Hii.
    set (Q := fun (t : list (list R)) m => exists smoothed, res_corr dvbin fwhm (nth ii t []) = Some smoothed /\ largest m smoothed).
    destruct (all_some_exists _ R (fun t => peak dvbin fwhm (nth ii t [])) Q tau) as (peaks & Ep & Fp).
    { intros t Ht. apply In_nth with (d := []) in Ht. destruct Ht as (j & Hj & <-). unfold peak, Q.
      rewrite res_corr_some by assumption.
      destruct (row_max_some (gaussian_filter (res_sigma dvbin fwhm) (nth ii (nth j tau []) []))) as (m & Em & Hm).
      - intros E0. apply (f_equal (@length R)) in E0. rewrite filter_length in E0.
        specialize (Hrows j ii Hj ltac:(lia)). destruct (nth ii (nth j tau []) []); [congruence|discriminate].
      - exists m. split; [assumption|]. eexists. split; [reflexivity|assumption]. }
    assert (Lp : length tau = length peaks) by (eapply Forall2_len; eassumption).
    destruct (choose_line_spec peaks) as (k & Ek & Bk); [intros ->; destruct tau; [congruence|discriminate]|].
    unfold observer_row. rewrite Ep, Ek. eexists. split; [reflexivity|]. exists peaks, k. split; [congruence|].
    split; [|split; [assumption|reflexivity]]. intros j Hj. apply (Forall2_nth_both _ _ _ _ _ Fp j [] 0 Hj). }
  exists out. split; [exact E|]. assert (L : length (seq 0 numlos) = length out) by (eapply Forall2_len; eassumption).
  rewrite seq_length in L. split; [congruence|]. intros ii Hii.
  pose proof (Forall2_nth_both _ _ _ _ _ F ii O [] ltac:(rewrite seq_length; assumption)) as H. rewrite seq_nth in H by assumption. exact H.
Qed.

(** ** Equivalent width *)

Lemma trapz_sum : forall dx y, y <> [] -> trapz dx y = dx * (rsum y - (hd 0 y + last y 0) / 2).
Proof.
  intros dx y. induction y as [|a y IH]; [congruence|]. intros _. destruct y as [|b y].
  - cbn. field.
  - change (trapz dx (a :: b :: y)) with (dx * (a + b) / 2 + trapz dx (b :: y)). rewrite IH by discriminate.
    change (last (a :: b :: y) 0) with (last (b :: y) 0). cbn [rsum fold_right hd]. unfold rsum. field.
Qed.

Lemma last_In : forall (y : list R) d, y <> [] -> In (last y d) y.
Proof.
  intros y d. induction y as [|a y IH]; [congruence|]. intros _. destruct y as [|b y]; [left; reflexivity|].
  right. change (last (a :: b :: y) d) with (last (b :: y) d). apply IH. discriminate.
Qed.

Lemma trapz_mono : forall dx x y, 0 <= dx -> Forall2 Rle x y -> trapz dx x <= trapz dx y.
Proof.
  intros dx x y Hdx F. induction F as [|a b x y Hab F IH]; [cbn; lra|].
  destruct F as [|a' b' x y Hab' F]; [cbn; lra|].
  change (dx * (a + a') / 2 + trapz dx (a' :: x) <= dx * (b + b') / 2 + trapz dx (b' :: y)).
  assert (dx * (a + a') <= dx * (b + b')) by (apply Rmult_le_compat_l; lra). lra.
Qed.

Lemma trapz_zero : forall dx n, trapz dx (repeat 0 n) = 0.
Proof.
  intros dx. induction n as [|n IH]; [reflexivity|]. destruct n as [|n]; [reflexivity|].
  change (dx * (0 + 0) / 2 + trapz dx (repeat 0 (S n)) = 0). rewrite IH. lra.
Qed.

Lemma trapz_one : forall dx n, trapz dx (repeat 1 (S n)) = dx * INR n.
Proof.
  intros dx. induction n as [|n IH]; [cbn; ring|].
  change (dx * (1 + 1) / 2 + trapz dx (repeat 1 (S n)) = dx * INR (S n)). rewrite IH, S_INR. field.
Qed.

Lemma step_pos : forall dvbin light line, 0 < dvbin -> 0 < light -> 0 < line -> 0 < dvbin / (light / 100000) * line.
Proof. intros. apply Rmult_lt_0_compat; [|assumption]. apply Rdiv_lt_0_compat; lra. Qed.

Lemma C55_formula_aux : forall dvbin light line row, row <> [] ->
  equivalent_width dvbin light line [row] =
  [dvbin / (light / 100000) * line *
     (rsum (map (fun t => 1 - exp (- t)) row) - (1 - exp (- hd 0 row) + (1 - exp (- last row 0))) / 2)].
Proof.
  intros dvbin light line row H. unfold equivalent_width. cbn [map]. f_equal. rewrite trapz_sum by (destruct row; [congruence|discriminate]).
  f_equal. f_equal. f_equal. f_equal.
  - destruct row; [congruence|reflexivity].
  - clear dvbin light line. induction row as [|a row IH]; [congruence|]. destruct row as [|b row]; [reflexivity|].
    change (last (map (fun t => 1 - exp (- t)) (b :: row)) 0 = 1 - exp (- last (b :: row) 0)). apply IH. discriminate.
Qed.

Lemma C55_bounds_aux : forall dvbin light line tau, 0 < dvbin -> 0 < light -> 0 < line ->
  (forall row, In row tau -> row <> [] /\ forall t, In t row -> 0 <= t) ->
  Forall2 (fun row w => 0 <= w <= dvbin / (light / 100000) * line * INR (length row - 1)) tau (equivalent_width dvbin light line tau).
Proof.
  intros dvbin light line tau H1 H2 H3 H. pose proof (step_pos _ _ _ H1 H2 H3) as P. set (dl := dvbin / (light / 100000) * line) in *.
  unfold equivalent_width. fold dl. induction tau as [|row tau IH]; [constructor|]. cbn [map]. constructor; [|apply IH; intros; apply H; right; assumption].
  destruct (H row (or_introl eq_refl)) as (Hne & Hpos). destruct row as [|t0 row]; [congruence|].
  assert (B : forall t, In t (t0 :: row) -> 0 <= 1 - exp (- t) <= 1).
  { intros t Ht. specialize (Hpos t Ht). pose proof (exp_pos (- t)). assert (exp (- t) <= exp 0) by (destruct (Req_dec t 0) as [->|]; [rewrite Ropp_0; lra|apply Rlt_le, exp_increasing; lra]).
    rewrite exp_0 in *. lra. }
  split.
  - rewrite <- (trapz_zero dl (length (t0 :: row))). apply trapz_mono; [lra|]. clear - B. induction (t0 :: row) as [|x l IH]; [constructor|].
    cbn [length repeat map]. constructor; [apply B; left; reflexivity|]. apply IH. intros; apply B; right; assumption.
  - cbn [length]. replace (S (length row) - 1)%nat with (length row) by lia. rewrite <- (trapz_one dl). change (S (length row)) with (length (t0 :: row)).
    apply trapz_mono; [lra|]. clear - B. induction (t0 :: row) as [|x l IH]; [constructor|].
    cbn [length repeat map]. constructor; [apply B; left; reflexivity|]. apply IH. intros; apply B; right; assumption.
Qed.

Lemma C55_monotone_aux : forall dvbin light line tau tau', 0 < dvbin -> 0 < light -> 0 < line ->
  Forall2 (Forall2 Rle) tau tau' -> Forall2 Rle (equivalent_width dvbin light line tau) (equivalent_width dvbin light line tau').
Proof.
  intros dvbin light line tau tau' H1 H2 H3 F. pose proof (step_pos _ _ _ H1 H2 H3) as P. unfold equivalent_width.
  induction F as [|a b tau tau' H _ IH]; [constructor|]. cbn [map]. constructor; [|assumption]. apply trapz_mono; [lra|].
  induction H as [|x y a b Hxy _ IHr]; [constructor|]. cbn [map]. constructor; [|assumption].
  destruct (Req_dec x y) as [->|]; [lra|]. assert (exp (- y) < exp (- x)) by (apply exp_increasing; lra). lra.
Qed.

(** One absorbing pixel: at the end of the spectrum it counts half. *)
Lemma C55_edge_aux : forall dvbin light line n t, 0 < dvbin -> 0 < light -> 0 < line -> 0 < t ->
  exists w, 0 < w /\
    equivalent_width dvbin light line [t :: repeat 0 (S (S n))] = [w / 2] /\
    equivalent_width dvbin light line [0 :: t :: repeat 0 (S n)] = [w] /\
    rotated 1 (t :: repeat 0 (S (S n))) (0 :: t :: repeat 0 (S n)).
Proof.
  intros dvbin light line n t H1 H2 H3 Ht. pose proof (step_pos _ _ _ H1 H2 H3) as P. set (dl := dvbin / (light / 100000) * line) in *.
  exists (dl * (1 - exp (- t))).
  assert (E0 : 1 - exp (- 0) = 0) by (rewrite Ropp_0, exp_0; ring).
  assert (M : forall k, map (fun t => 1 - exp (- t)) (repeat 0 k) = repeat 0 k) by (induction k as [|k IH]; cbn [repeat map]; [reflexivity|rewrite IH, E0; reflexivity]).
  split. { apply Rmult_lt_0_compat; [assumption|]. assert (exp (- t) < exp 0) by (apply exp_increasing; lra). rewrite exp_0 in H. lra. }
  split.
  { unfold equivalent_width. fold dl. cbn [map]. rewrite (M (S (S n))). f_equal.
    change (dl * (1 - exp (- t) + 0) / 2 + trapz dl (repeat 0 (S (S n))) = dl * (1 - exp (- t)) / 2). rewrite trapz_zero. field. }
  split.
  { unfold equivalent_width. fold dl. cbn [map]. rewrite (M (S n)), E0. f_equal.
    change (dl * (0 + (1 - exp (- t))) / 2 + (dl * (1 - exp (- t) + 0) / 2 + trapz dl (repeat 0 (S n))) = dl * (1 - exp (- t))). rewrite trapz_zero. field. }
  assert (N0 : forall k i, nth i (repeat 0 k) 0 = 0) by (intros; apply nth_repeat0).
  split; [cbn [length]; rewrite !repeat_length; lia|]. cbn [length]. rewrite repeat_length. intros j Hj.
  destruct (Z.eq_dec j 0) as [->|Hj0].
  - rewrite Z.mod_small by lia. reflexivity.
  - replace (nth (Z.to_nat j) (t :: repeat 0 (S (S n))) 0) with 0.
    2: { destruct (Z.to_nat j) as [|j'] eqn:Ej; [lia|]. cbn [nth]. symmetry. apply N0. }
    destruct (Z.eq_dec (j + 1) (Z.of_nat (S (S (S n))))) as [->|Hw].
    + rewrite Z.mod_same by lia. reflexivity.
    + rewrite Z.mod_small by lia. destruct (Z.to_nat (j + 1)) as [|[|j']] eqn:Ej; try lia. cbn [nth]. apply N0.
Qed.

Lemma res_sigma_eq : forall dvbin fwhm, 0 < dvbin -> 0 < fwhm ->
  4 * res_sigma dvbin fwhm = 4 * fwhm / (dvbin * sqrt (8 * ln 2)) /\
  forall k, raw_weight (res_sigma dvbin fwhm) k = exp (- (4 * ln 2 * (IZR k * dvbin / fwhm) ^ 2)).
Proof.
  intros dvbin fwhm Hd Hf.
  assert (Hl : 0 < ln 2) by (rewrite <- ln_1; apply ln_increasing; lra).
  assert (Hq : 0 < sqrt (2 * ln 2)) by (apply sqrt_lt_R0; lra).
  assert (Q : sqrt (2 * ln 2) * sqrt (2 * ln 2) = 2 * ln 2) by (apply sqrt_sqrt; lra).
  unfold res_sigma. split.
  - replace (sqrt (8 * ln 2)) with (2 * sqrt (2 * ln 2)); [field; lra|].
    rewrite <- (sqrt_square 2) at 1 by lra. rewrite <- sqrt_mult by lra. f_equal. ring.
  - intros k. unfold raw_weight. apply f_equal.
    replace (fwhm / dvbin / (2 * sqrt (2 * ln 2)) * (fwhm / dvbin / (2 * sqrt (2 * ln 2)))) with
      (fwhm * fwhm / (dvbin * dvbin) / (4 * (sqrt (2 * ln 2) * sqrt (2 * ln 2)))) by (field; lra).
    rewrite Q. field. lra.
Qed.

Lemma C54_gaussian_aux : forall dvbin fwhm l out i, 0 < dvbin -> 0 < fwhm ->
  res_corr dvbin fwhm l = Some out -> (i < length l)%nat ->
  let g := fun k => exp (- (4 * ln 2 * (IZR k * dvbin / fwhm) ^ 2)) in
  let r := Z.to_nat (Zfloor (4 * fwhm / (dvbin * sqrt (8 * ln 2)) + 1 / 2)) in
  nth i out 0 =
  zsum r (fun k => g k * nth (Z.to_nat ((Z.of_nat i + k) mod Z.of_nat (length l))) l 0) / zsum r g.
Proof.
  intros dvbin fwhm l out i Hd Hf E Hi g r. unfold res_corr in E.
  destruct (Req_EM_T dvbin 0); [discriminate|]. destruct (Rlt_dec 0 (res_sigma dvbin fwhm)); [|discriminate].
  injection E as <-. rewrite filter_nth by assumption.
  destruct (res_sigma_eq dvbin fwhm Hd Hf) as (S1 & S2). set (s := res_sigma dvbin fwhm) in *.
  assert (Er : radius s = r) by (unfold radius, r; rewrite S1; do 3 f_equal; lra).
  rewrite Er. unfold weight. rewrite Er.
  rewrite (zsum_map_ext _ (raw_weight s) g) by exact S2.
  unfold Rdiv at 2. rewrite Rmult_comm, <- zsum_scal. apply zsum_map_ext. intros k. rewrite S2. fold (g k).
  unfold Rdiv. ring.
Qed.
