(** Symmetries of the curvature, and the whole of get_curvature. *)
From Coq Require Import List Reals Bool ZArith Lra Lia Permutation.
From Flocq Require Import Core.Raux.
From Verif Require Import AbsorptionSpec RescaleModel RescaleSpec RescaleProofs SightlineModel SightlineSpec SightlineProofs CurveModel CurveSpec CurveProofs CurveProofs2.
Import ListNotations.
Local Open Scope R_scope.

(** ** Flux turned upside down *)
Lemma middling_mirror : forall i row l, middling i row l -> middling i (map (fun f => 1 - f) row) (map (fun q => (fst q, 1 - snd q)) l).
Proof. intros i row l H. induction H; cbn [map fst snd]; constructor; try assumption; lra. Qed.

Lemma combine_map2 : forall (f g : R -> R) a b, combine (map f a) (map g b) = map (fun q => (f (fst q), g (snd q))) (combine a b).
Proof. intros f g. induction a as [|x a IH]; intros [|y b]; cbn [map combine]; try reflexivity. rewrite IH. reflexivity. Qed.

Lemma bending_opp : forall p pp, bending (-1 * p) (-1 * pp) = bending p pp.
Proof.
  intros. unfold bending. replace (-1 * pp) with (- pp) by ring. rewrite Rabs_Ropp. replace ((-1 * p) ^ 2) with (p ^ 2) by ring. reflexivity.
Qed.

Lemma curvature_mirror : forall step row c, mean_curvature step row c -> mean_curvature step (map (fun f => 1 - f) row) c.
Proof.
  intros step row c (l & M & H). exists (map (fun q => (fst q, 1 - snd q)) l). split; [apply middling_mirror; exact M|].
  rewrite map_length. destruct H as [H|(H & p & pp & P)]; [left; exact H|]. right. split; [exact H|]. cbv zeta in P.
  destruct P as (P1 & P2 & ->). exists (map (fun d => -1 * d) p), (map (fun d => -1 * d) pp). cbv zeta.
  rewrite map_map. cbn [fst]. rewrite map_map. cbn [snd].
  split.
  - assert (X := slopes_affine _ _ _ 1 (-1) P1). rewrite map_map in X.
    rewrite (map_ext (fun q : nat * R => 1 - snd q) (fun q => 1 + -1 * snd q)) by (intros; ring). exact X.
  - split.
    + assert (X := slopes_affine _ _ _ 0 (-1) P2). rewrite (map_ext (fun f => 0 + -1 * f) (fun d => -1 * d)) in X by (intros; ring). exact X.
    + rewrite combine_map2, map_map. f_equal. apply map_ext. intros [a b]. cbn [fst snd]. symmetry. apply bending_opp.
Qed.

(** ** The spectrum read backwards *)
Lemma middling_app : forall r1 r2 i l1 l2, middling i r1 l1 -> middling (i + length r1) r2 l2 -> middling i (r1 ++ r2) (l1 ++ l2).
Proof.
  intros r1 r2 i l1 l2 H. induction H as [i| i f row l F H IH | i f row l F H IH]; intros H2; cbn [app length] in *.
  - rewrite Nat.add_0_r in H2. exact H2.
  - constructor; [exact F|]. apply IH. replace (S i + length row)%nat with (i + S (length row))%nat by lia. exact H2.
  - constructor; [exact F|]. apply IH. replace (S i + length row)%nat with (i + S (length row))%nat by lia. exact H2.
Qed.

Lemma middling_rev : forall i row l, middling i row l ->
  middling 0 (rev row) (rev (map (fun q => ((i + length row - 1 - fst q)%nat, snd q)) l)).
Proof.
  intros i row l H. induction H as [i| i f row l F H IH | i f row l F H IH]; cbn [rev map length].
  - constructor.
  - apply middling_app.
    + replace (i + S (length row) - 1)%nat with (S i + length row - 1)%nat by lia. exact IH.
    + rewrite rev_length. cbn [fst snd plus]. replace (i + S (length row) - 1 - i)%nat with (length row) by lia.
      constructor; [exact F|constructor].
  - rewrite <- (app_nil_r (rev (map _ l))). apply middling_app.
    + replace (i + S (length row) - 1)%nat with (S i + length row - 1)%nat by lia. exact IH.
    + constructor; [exact F|constructor].
Qed.

Lemma combine_app_eq : forall A B (a a' : list A) (b b' : list B), length a = length b -> combine (a ++ a') (b ++ b') = combine a b ++ combine a' b'.
Proof.
  intros A B. induction a as [|x a IH]; intros a' [|y b] b' H; cbn [app combine length] in *; try discriminate; [reflexivity|].
  rewrite IH by lia. reflexivity.
Qed.

Lemma combine_rev : forall A B (a : list A) (b : list B), length a = length b -> combine (rev a) (rev b) = rev (combine a b).
Proof.
  intros A B. induction a as [|x a IH]; intros [|y b] H; cbn [rev combine length] in *; try discriminate; [reflexivity|].
  rewrite combine_app_eq by (rewrite !rev_length; lia). rewrite IH by lia. reflexivity.
Qed.

Lemma sum_app : forall a b, fold_right Rplus 0 (a ++ b) = fold_right Rplus 0 a + fold_right Rplus 0 b.
Proof. induction a as [|x a IH]; intros b; cbn [app fold_right]; [ring|]. rewrite IH. ring. Qed.

Lemma average_rev : forall l, average (rev l) = average l.
Proof.
  intros l. unfold average. rewrite rev_length. f_equal. induction l as [|x l IH]; [reflexivity|]. cbn [rev fold_right].
  rewrite sum_app, IH. cbn [fold_right]. ring.
Qed.

Lemma curvature_rev : forall step row c, mean_curvature step row c -> mean_curvature step (rev row) c.
Proof.
  intros step row c (l & M & H). exists (rev (map (fun q => ((0 + length row - 1 - fst q)%nat, snd q)) l)).
  split; [apply middling_rev; exact M|]. rewrite rev_length, map_length.
  destruct H as [H|(H & p & pp & P)]; [left; exact H|]. right. split; [exact H|]. cbv zeta in P. destruct P as (P1 & P2 & ->).
  exists (rev (map Ropp p)), (rev pp). cbv zeta.
  set (xs := map (fun q => INR (fst q) * step) l) in *.
  assert (Lx : length xs = length (map snd l)) by (unfold xs; rewrite !map_length; reflexivity).
  assert (Ex : map (fun q => INR (fst q) * step) (rev (map (fun q => ((0 + length row - 1 - fst q)%nat, snd q)) l)) =
    rev (map (fun x => INR (length row - 1) * step - x) xs)).
  { rewrite map_rev. f_equal. unfold xs. rewrite !map_map. apply map_ext_in. intros q Hq. cbn [fst].
    assert (B := middling_bounds _ _ _ M). rewrite Forall_forall in B. specialize (B q Hq).
    replace (0 + length row - 1 - fst q)%nat with (length row - 1 - fst q)%nat by lia. rewrite (minus_INR (length row - 1)) by lia. ring. }
  assert (Ef : map snd (rev (map (fun q => ((0 + length row - 1 - fst q)%nat, snd q)) l)) = rev (map snd l)).
  { rewrite map_rev, map_map. reflexivity. }
  rewrite Ex, Ef. assert (Lp : length p = length (map snd l)) by apply P1. assert (Lpp : length pp = length p) by apply P2.
  split; [apply slopes_reverse; assumption|]. split.
  - assert (X := slopes_affine _ _ _ 0 (-1) P2). rewrite (map_ext (fun f => 0 + -1 * f) Ropp) in X by (intros; ring).
    rewrite (map_ext (fun d => -1 * d) Ropp) in X by (intros; ring).
    assert (Y := slopes_reverse xs (map Ropp p) (map Ropp pp) (INR (length row - 1) * step) ltac:(rewrite map_length; congruence) X).
    rewrite map_map in Y. rewrite (map_ext (fun x => - - x) (fun x => x)) in Y by (intros; ring). rewrite map_id in Y. exact Y.
  - rewrite combine_rev by (rewrite map_length; congruence). rewrite map_rev, average_rev. f_equal.
    rewrite <- (map_id pp) at 2. rewrite combine_map2, map_map. apply map_ext. intros [a b]. cbn [fst snd]. unfold bending.
    replace ((- a) ^ 2) with (a ^ 2) by ring. reflexivity.
Qed.

Lemma same_curvature : forall vmax nbins row row' , 0 < vmax -> (length row <= nbins)%nat -> length row' = length row ->
  (forall c, mean_curvature (vmax / (INR nbins - 1)) row c -> mean_curvature (vmax / (INR nbins - 1)) row' c) ->
  section_curvature vmax nbins row' = section_curvature vmax nbins row.
Proof.
  intros vmax nbins row row' Hv Hl Hl' H. destruct (section_spec vmax nbins row Hv Hl) as (c & E & C).
  destruct (section_spec vmax nbins row' Hv ltac:(lia)) as (c' & E' & C'). rewrite E, E'. f_equal.
  destruct (Nat.le_gt_cases nbins 1) as [Hn|Hn].
  - destruct C as (l & M & C). destruct C' as (l' & M' & C').
    assert (forall i row l, middling i row l -> (length l <= length row)%nat) by (clear; intros i row l X; induction X; cbn [length]; lia).
    assert (X := H0 _ _ _ M). assert (X' := H0 _ _ _ M').
    destruct C as [[_ ->]|[? _]]; [|lia]. destruct C' as [[_ ->]|[? _]]; [reflexivity|lia].
  - apply (curvature_unique (vmax / (INR nbins - 1)) row'); [|exact C'|apply H; exact C].
    apply Rdiv_lt_0_compat; [exact Hv|]. assert (INR 2 <= INR nbins) by (apply le_INR; lia). cbn [INR] in *. lra.
Qed.

Lemma C70_symmetric_aux : forall vmax nbins flux, 0 < vmax -> Forall (fun row => (length row <= nbins)%nat) flux ->
  compute_curvature vmax nbins (map (map (fun f => 1 - f)) flux) = compute_curvature vmax nbins flux /\
  compute_curvature vmax nbins (map (@rev R) flux) = compute_curvature vmax nbins flux.
Proof.
  intros vmax nbins flux Hv H. unfold compute_curvature. rewrite !map_map. rewrite Forall_forall in H.
  split; f_equal; f_equal; apply map_ext_in; intros row Hr; specialize (H row Hr).
  - apply same_curvature; [exact Hv|exact H|apply map_length|]. intros c. apply curvature_mirror.
  - apply same_curvature; [exact Hv|exact H|apply rev_length|]. intros c. apply curvature_rev.
Qed.

(** ** Sets of sections *)
Lemma all_some_app : forall A (a b : list (option A)),
  all_some (a ++ b) = match all_some a with Some x => match all_some b with Some y => Some (x ++ y) | None => None end | None => None end.
Proof.
  intros A. induction a as [|[x|] a IH]; intros b; cbn [app all_some]; [destruct (all_some b); reflexivity| |reflexivity].
  rewrite IH. destruct (all_some a); [|reflexivity]. destruct (all_some b); reflexivity.
Qed.

Lemma compute_app : forall vmax nbins a b, compute_curvature vmax nbins (a ++ b) =
  match compute_curvature vmax nbins a with Some x => match compute_curvature vmax nbins b with Some y => Some (x ++ y) | None => None end | None => None end.
Proof.
  intros. unfold compute_curvature. rewrite map_app, all_some_app. destruct (all_some (map _ a)); [|reflexivity]. cbn [option_map].
  destruct (all_some (map _ b)); [|reflexivity]. cbn [option_map]. rewrite filter_app. reflexivity.
Qed.

(** ** The sections *)
Lemma section_ok : forall k row i, (i * k + (k + 1) <= length row)%nat ->
  exists sec mx, window (i * k) (k + 1) row sec /\ is_max sec mx /\
    section k row i = Some (map (fun x => if Req_EM_T mx 0 then 0 else x / mx) sec).
Proof.
  intros k row i Hl. unfold section. replace ((i + 1) * k + 1)%nat with (i * k + (k + 1))%nat by lia.
  pose proof (slice_window row (i * k) (k + 1) Hl) as W. cbv zeta.
  set (sec := py_slice (i * k) (i * k + (k + 1)) row) in *. pose proof (proj1 W) as L. rewrite L, Nat.eqb_refl.
  destruct sec as [|x s] eqn:Es; [cbn in L; lia|]. cbn [row_max]. destruct (fold_Rmax s x) as [M1 M2].
  exists (x :: s), (fold_left Rmax s x). repeat split; auto; apply W.
Qed.

Lemma sections_ok : forall vmax velfac box ss npix flux, 0 < box -> 0 < velfac -> vmax = box * velfac -> (2 <= npix)%nat ->
  Forall (fun row => length row = npix) flux -> box / (INR npix - 1) <= ss <= box ->
  exists m k secs, flux_sections vmax velfac box ss npix flux = Some secs /\
    (1 <= m)%nat /\ (1 <= k)%nat /\ (m * k + 1 <= npix)%nat /\
    INR m <= box / ss < INR m + 1 /\ INR k <= (INR npix - 1) * ss / box < INR k + 1 /\ sectioned m k flux secs.
Proof.
  intros vmax velfac box ss npix flux Hb Hv Ev Hn Hf Hs.
  destruct (section_counts vmax velfac box ss npix Hb Hv Ev Hn Hs) as [M1 [K1 [MK [M2 K2]]]].
  unfold flux_sections. destruct (Nat.eqb_spec npix 1); [lia|].
  assert (Hn1 : 1 <= INR npix - 1) by (assert (H := le_INR 2 npix Hn); cbn [INR] in H; lra).
  cbv zeta. destruct (Rlt_dec ss (vmax / (INR npix - 1) / velfac)) as [C|_].
  { exfalso. replace (vmax / (INR npix - 1) / velfac) with (box / (INR npix - 1)) in C by (subst; field; lra). lra. }
  destruct (Rlt_dec box ss) as [C|_]; [lra|].
  set (k := Z.to_nat (Zfloor (vmax / (box / ss * (vmax / (INR npix - 1)))))) in *.
  set (m := Z.to_nat (Zfloor (box / ss))) in *.
  assert (S1 : forall i row, (i < m)%nat -> In row flux ->
    exists sec mx, window (i * k) (k + 1) row sec /\ is_max sec mx /\ section k row i = Some (map (fun x => if Req_EM_T mx 0 then 0 else x / mx) sec)).
  { intros i row Hi Hr. rewrite Forall_forall in Hf. apply section_ok. rewrite (Hf row Hr). nia. }
  destruct (all_some_spec _ (flat_map (fun i => map (fun row => section k row i) flux) (seq 0 m))) as [out [E Mo]].
  { intros x Hx. apply in_flat_map in Hx. destruct Hx as [i [Hi Hx]]. apply in_map_iff in Hx.
    destruct Hx as [row [<- Hr]]. apply in_seq in Hi. destruct (S1 i row ltac:(lia) Hr) as (sec & mx & _ & _ & Eo). rewrite Eo. discriminate. }
  exists m, k, out. split; [exact E|]. repeat (split; [tauto|]). split.
  - rewrite <- (map_length Some out), Mo. rewrite (flat_map_const_len _ _ (fun i row => section k row i)), seq_length. reflexivity.
  - intros i j row Hi Hj. destruct (S1 i row Hi (nth_error_In _ _ Hj)) as (sec & mx & A & B & D).
    exists sec, mx. split; [exact A|]. split; [exact B|].
    assert (G : nth_error (map Some out) (i * length flux + j) = Some (section k row i)).
    { rewrite Mo. apply (flat_map_const_nth _ _ (fun i row => section k row i) flux m 0 i j row); assumption. }
    rewrite nth_error_map, D in G. destruct (nth_error out (i * length flux + j)); cbn [option_map] in G; congruence.
Qed.

Lemma sectioned_in : forall m k flux secs sec', sectioned m k flux secs -> In sec' secs ->
  exists i row sec mx, (i < m)%nat /\ In row flux /\ window (i * k) (k + 1) row sec /\ is_max sec mx /\ sec' = map (fun x => if Req_EM_T mx 0 then 0 else x / mx) sec.
Proof.
  intros m k flux secs sec' [L H] I. apply In_nth_error in I. destruct I as (q & Hq).
  assert (Lq : (q < m * length flux)%nat) by (rewrite <- L; apply nth_error_Some; congruence).
  assert (F : (0 < length flux)%nat) by (destruct (length flux); nia).
  assert (Q1 : (q / length flux < m)%nat) by (apply Nat.div_lt_upper_bound; lia).
  assert (Q2 : (q mod length flux < length flux)%nat) by (apply Nat.mod_upper_bound; lia).
  destruct (nth_error flux (q mod length flux)) as [row|] eqn:Er; [|apply nth_error_None in Er; lia].
  destruct (H _ _ _ Q1 Er) as (sec & mx & W & M & E).
  replace (q / length flux * length flux + q mod length flux)%nat with q in E by (rewrite (Nat.div_mod q (length flux)) at 1; lia).
  exists (q / length flux)%nat, row, sec, mx. split; [exact Q1|]. split; [eapply nth_error_In; exact Er|]. split; [exact W|]. split; [exact M|]. congruence.
Qed.

Lemma window_in : forall a n row sec x, window a n row sec -> In x sec -> In x row.
Proof.
  intros a n row sec x (L & _ & W) I. apply In_nth_error in I. destruct I as (j & Hj).
  assert (j < n)%nat by (rewrite <- L; apply nth_error_Some; congruence). rewrite W in Hj by assumption. eapply nth_error_In. exact Hj.
Qed.

Lemma pixels_unit : forall m k flux secs, Forall (Forall (fun x => 0 <= x)) flux -> sectioned m k flux secs -> Forall (fun x => 0 <= x <= 1) (concat secs).
Proof.
  intros m k flux secs Hf Hs. apply Forall_forall. intros y Hy. apply in_concat in Hy. destruct Hy as (sec' & I & Hy).
  destruct (sectioned_in _ _ _ _ _ Hs I) as (i & row & sec & mx & _ & Hr & W & [M1 M2] & ->). apply in_map_iff in Hy. destruct Hy as (x & <- & Hx).
  destruct (Req_EM_T mx 0); [lra|]. rewrite Forall_forall in Hf. specialize (Hf row Hr). rewrite Forall_forall in Hf.
  assert (0 <= x) by (apply Hf; eapply window_in; eassumption). assert (0 <= mx) by (apply Hf; eapply window_in; eassumption).
  specialize (M2 x Hx). split.
  - apply Rmult_le_pos; [assumption|]. left. apply Rinv_0_lt_compat. lra.
  - apply Rmult_le_reg_r with mx; [lra|]. replace (x / mx * mx) with x by (field; lra). lra.
Qed.

Lemma sections_short : forall m k npix flux secs, (m * k + 1 <= npix)%nat -> (1 <= m)%nat -> Forall (fun row => length row = npix) flux ->
  sectioned m k flux secs -> Forall (fun row => (length row <= npix)%nat) secs.
Proof.
  intros m k npix flux secs H Hm Hf Hs. apply Forall_forall. intros s Hi. destruct (sectioned_in _ _ _ _ _ Hs Hi) as (i & row & sec & mx & Hlt & _ & (L & _) & _ & ->).
  rewrite map_length, L. nia.
Qed.
