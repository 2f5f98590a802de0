(** The curvature of a section and of a set of sections. *)
From Coq Require Import List Reals Bool ZArith Lra Lia.
From Verif Require Import RescaleModel SightlineModel CurveModel CurveSpec CurveProofs.
Import ListNotations.
Local Open Scope R_scope.

(** ** The pixels in range *)
Lemma inside_spec : forall f, inside f = true <-> 0.1 < f < 0.9.
Proof. intros f. unfold inside. destruct (Rlt_dec 0.1 f); [destruct (Rlt_dec f 0.9)|]; split; intros; try discriminate; try reflexivity; lra. Qed.

Lemma middling_filter : forall row i,
  middling i row (map (fun k => (k, nth (k - i) row 0)) (filter (fun k => inside (nth (k - i) row 0)) (seq i (length row)))).
Proof.
  induction row as [|f row IH]; intros i; [constructor|]. cbn [length seq filter]. rewrite Nat.sub_diag. change (nth 0 (f :: row) 0) with f.
  assert (E : map (fun k => (k, nth (k - i) (f :: row) 0)) (filter (fun k => inside (nth (k - i) (f :: row) 0)) (seq (S i) (length row)))
    = map (fun k => (k, nth (k - S i) row 0)) (filter (fun k => inside (nth (k - S i) row 0)) (seq (S i) (length row)))).
  { assert (F : forall k, In k (seq (S i) (length row)) -> nth (k - i) (f :: row) 0 = nth (k - S i) row 0).
    { intros k Hk. apply in_seq in Hk. replace (k - i)%nat with (S (k - S i)) by lia. reflexivity. }
    rewrite (filter_ext_in (fun k => inside (nth (k - i) (f :: row) 0)) (fun k => inside (nth (k - S i) row 0))) by (intros k Hk; rewrite (F k Hk); reflexivity).
    apply map_ext_in. intros k Hk. apply filter_In in Hk. rewrite (F k) by tauto. reflexivity. }
  destruct (inside f) eqn:I.
  - cbn [map]. rewrite Nat.sub_diag. change (nth 0 (f :: row) 0) with f. rewrite E. constructor; [apply inside_spec; exact I|apply IH].
  - rewrite E. constructor; [intros H; apply inside_spec in H; congruence|apply IH].
Qed.

Lemma middling_unique : forall i row l l', middling i row l -> middling i row l' -> l = l'.
Proof.
  intros i row l l' H. revert l'. induction H; intros l' H'; inversion H'; subst; try contradiction; try reflexivity; f_equal; auto.
Qed.

Definition inrange (row : list R) : list (nat * R) := map (fun k => (k, nth k row 0)) (flux_range row).

Lemma inrange_middling : forall row, middling 0 row (inrange row).
Proof.
  intros row. assert (H := middling_filter row 0). unfold inrange, flux_range.
  rewrite (filter_ext (fun i => inside (nth i row 0)) (fun k => inside (nth (k - 0) row 0))) by (intros k; rewrite Nat.sub_0_r; reflexivity).
  rewrite (map_ext (fun k => (k, nth k row 0)) (fun k => (k, nth (k - 0) row 0))) by (intros k; rewrite Nat.sub_0_r; reflexivity). exact H.
Qed.

Lemma middling_bounds : forall i row l, middling i row l -> Forall (fun q => (i <= fst q < i + length row)%nat /\ 0.1 < snd q < 0.9) l.
Proof.
  intros i row l H. induction H as [| |]; cbn [length]; [constructor| |].
  - constructor; [cbn [fst snd]; split; [lia|assumption]|]. eapply Forall_impl; [|eassumption]. intros q [? ?]. split; [lia|assumption].
  - eapply Forall_impl; [|eassumption]. intros q [? ?]. split; [lia|assumption].
Qed.

Lemma middling_up : forall i row l, middling i row l -> forall k, (k + 1 < length l)%nat -> (fst (nth k l (0%nat, 0%R)) < fst (nth (k + 1) l (0%nat, 0%R)))%nat.
Proof.
  intros i row l H. induction H as [| i f row l F H IH | i f row l F H IH]; intros k Hk; cbn [length] in Hk; [lia| |apply IH; exact Hk].
  destruct k as [|k].
  - cbn [nth plus]. assert (B := middling_bounds _ _ _ H). rewrite Forall_forall in B.
    specialize (B (nth 0 l (0%nat, 0)) ltac:(apply nth_In; lia)). cbn [fst] in *. lia.
  - cbn [nth plus]. apply IH. lia.
Qed.

Lemma positions_ascending : forall row l step, 0 < step -> middling 0 row l -> ascending (map (fun q => INR (fst q) * step) l).
Proof.
  intros row l step Hs H k Hk. rewrite map_length in Hk.
  rewrite !(nth_indep (map (fun q => INR (fst q) * step) l) 0 (INR (fst (0%nat, 0)) * step)) by (rewrite map_length; lia).
  rewrite !(map_nth (fun q => INR (fst q) * step)). apply Rmult_lt_compat_r; [exact Hs|]. apply lt_INR. apply (middling_up _ _ _ H). exact Hk.
Qed.

(** ** One section *)
Lemma section_spec : forall vmax nbins row, 0 < vmax -> (length row <= nbins)%nat ->
  exists c, section_curvature vmax nbins row = Some c /\ mean_curvature (vmax / (INR nbins - 1)) row c.
Proof.
  intros vmax nbins row Hv Hl. unfold section_curvature. cbv zeta. assert (M := inrange_middling row). assert (B := middling_bounds _ _ _ M).
  assert (Len : length (inrange row) = length (flux_range row)) by (unfold inrange; apply map_length).
  destruct (Nat.ltb_spec 2 (length (flux_range row))) as [H2|H2].
  - assert (F : forallb (fun i => Nat.ltb i nbins) (flux_range row) = true).
    { apply forallb_forall. intros i Hi. apply Nat.ltb_lt. unfold inrange in B. rewrite Forall_map, Forall_forall in B. specialize (B i Hi).
      cbn [fst] in B. lia. }
    rewrite F. eexists. split; [reflexivity|]. exists (inrange row). split; [exact M|]. right. split; [lia|].
    set (x := map (velocity vmax nbins) (flux_range row)). set (fs := map (fun i => nth i row 0) (flux_range row)).
    assert (Hn : (3 <= nbins)%nat).
    { assert (length (inrange row) <= length row)%nat; [|lia]. clear - M. induction M; cbn [length]; lia. }
    assert (Hs : 0 < vmax / (INR nbins - 1)).
    { apply Rdiv_lt_0_compat; [exact Hv|]. assert (INR 3 <= INR nbins) by (apply le_INR; exact Hn). cbn [INR] in *. lra. }
    exists (gradient fs x), (gradient (gradient fs x) x). cbv zeta.
    assert (Ex : map (fun q => INR (fst q) * (vmax / (INR nbins - 1))) (inrange row) = x) by (unfold inrange, x; rewrite map_map; reflexivity).
    assert (Ef : map snd (inrange row) = fs) by (unfold inrange, fs; rewrite map_map; reflexivity).
    rewrite Ex, Ef. assert (A : ascending x) by (rewrite <- Ex; apply (positions_ascending row); assumption).
    assert (L1 : length x = length fs) by (unfold x, fs; rewrite !map_length; reflexivity).
    assert (L2 : (2 < length fs)%nat) by (unfold fs; rewrite map_length; exact H2).
    split; [apply gradient_slopes; assumption|]. split; [apply gradient_slopes; rewrite ?gradient_length; assumption|].
    unfold mean, average. rewrite !map_length. f_equal. f_equal. apply map_ext. intros [p pp]. cbn [fst snd]. unfold bending, Rdiv.
    rewrite Rabs_mult. f_equal. apply Rabs_pos_eq. left. apply Rinv_0_lt_compat. apply exp_pos.
  - eexists. split; [reflexivity|]. exists (inrange row). split; [exact M|]. left. split; [lia|reflexivity].
Qed.

Lemma curvature_unique : forall step row c c', 0 < step -> mean_curvature step row c -> mean_curvature step row c' -> c = c'.
Proof.
  intros step row c c' Hs (l & M & H) (l' & M' & H'). assert (l' = l) by (eapply middling_unique; eassumption). subst l'.
  destruct H as [[H ->]|(H & p & pp & P)]; destruct H' as [[H' ->]|(H' & p' & pp' & P')]; try lia; [reflexivity|].
  cbv zeta in P, P'. destruct P as (P1 & P2 & ->). destruct P' as (Q1 & Q2 & ->).
  assert (A := positions_ascending row l step Hs M).
  assert (p' = p). { eapply slopes_unique; [|exact A|exact Q1|exact P1]. rewrite !map_length. reflexivity. } subst p'.
  assert (pp' = pp). { eapply slopes_unique; [|exact A|exact Q2|exact P2]. destruct P1 as [P1 _]. rewrite P1, !map_length. reflexivity. } subst pp'.
  reflexivity.
Qed.

Lemma bending_nonneg : forall p pp, 0 <= bending p pp.
Proof.
  intros. unfold bending, Rdiv. apply Rmult_le_pos; [apply Rabs_pos|]. left. apply Rinv_0_lt_compat, exp_pos.
Qed.

Lemma average_nonneg : forall l, Forall (fun x => 0 <= x) l -> 0 <= average l.
Proof.
  intros l H. unfold average. destruct l as [|x l]; [cbn; lra|]. apply Rmult_le_pos.
  - induction H; cbn [fold_right]; lra.
  - left. apply Rinv_0_lt_compat, lt_0_INR. cbn [length]. lia.
Qed.

Lemma positives_filter : forall cs, positives cs (filter (fun c => if Rlt_dec 0 c then true else false) cs).
Proof.
  induction cs as [|c cs IH]; [constructor|]. cbn [filter]. destruct (Rlt_dec 0 c); constructor; try assumption. lra.
Qed.

Lemma positives_unique : forall cs a b, positives cs a -> positives cs b -> a = b.
Proof.
  intros cs a b H. revert b. induction H; intros b' H'; inversion H'; subst; try lra; try reflexivity; try f_equal; auto.
Qed.

Lemma sections_spec : forall vmax nbins flux, 0 < vmax -> Forall (fun row => (length row <= nbins)%nat) flux ->
  exists cs, all_some (map (section_curvature vmax nbins) flux) = Some cs /\ Forall2 (mean_curvature (vmax / (INR nbins - 1))) flux cs.
Proof.
  intros vmax nbins flux Hv. induction flux as [|row flux IH]; intros H; [exists []; split; [reflexivity|constructor]|].
  inversion H as [|? ? H1 H2]; subst. destruct (IH H2) as (cs & E & F). destruct (section_spec vmax nbins row Hv H1) as (c & Ec & C).
  exists (c :: cs). split; [cbn [map all_some]; rewrite Ec, E; reflexivity|]. constructor; assumption.
Qed.

Lemma C70_curvature_aux : forall vmax nbins flux, 0 < vmax -> Forall (fun row => (length row <= nbins)%nat) flux ->
  exists cs out, compute_curvature vmax nbins flux = Some out /\ Forall2 (mean_curvature (vmax / (INR nbins - 1))) flux cs /\ positives cs out.
Proof.
  intros vmax nbins flux Hv H. destruct (sections_spec vmax nbins flux Hv H) as (cs & E & F).
  exists cs, (filter (fun c => if Rlt_dec 0 c then true else false) cs). split; [unfold compute_curvature; rewrite E; reflexivity|].
  split; [exact F|apply positives_filter].
Qed.

(** ** A parabola *)
Lemma C70_parabola_aux : forall vmax nbins row l a b c, 0 < vmax -> (length row <= nbins)%nat -> middling 0 row l -> (2 < length l)%nat ->
  c <> 0 -> let x i := INR i * (vmax / (INR nbins - 1)) in
  Forall (fun q => snd q = parabola a b c (x (fst q))) l ->
  compute_curvature vmax nbins [row] = Some [average (map (fun q => 2 * Rabs c / Rpower (1 + (b + 2 * c * x (fst q)) ^ 2) (3 / 2)) l)].
Proof.
  intros vmax nbins row l a b c Hv Hl M H2 Hc x P. destruct (section_spec vmax nbins row Hv Hl) as (cv & E & C).
  unfold compute_curvature. cbn [map all_some]. rewrite E. cbn [option_map filter].
  assert (Q : cv = average (map (fun q => 2 * Rabs c / Rpower (1 + (b + 2 * c * x (fst q)) ^ 2) (3 / 2)) l)).
  { destruct C as (l' & M' & C). assert (l' = l) by (eapply middling_unique; eassumption). subst l'.
    destruct C as [[? _]|(_ & p & pp & C)]; [lia|]. cbv zeta in C. destruct C as (S1 & S2 & ->).
    assert (Hs : 0 < vmax / (INR nbins - 1)).
    { apply Rdiv_lt_0_compat; [exact Hv|]. assert (Hn : (3 <= nbins)%nat).
      { assert (length l <= length row)%nat; [|lia]. clear - M. induction M; cbn [length]; lia. }
      assert (INR 3 <= INR nbins) by (apply le_INR; exact Hn). cbn [INR] in *. lra. }
    assert (A := positions_ascending row l _ Hs M). set (xs := map (fun q => INR (fst q) * (vmax / (INR nbins - 1))) l) in *.
    assert (Lx : length xs = length l) by (unfold xs; apply map_length).
    assert (Ef : map snd l = map (parabola a b c) xs).
    { unfold xs. rewrite map_map. apply map_ext_in. intros q Hq. rewrite Forall_forall in P. apply (P q Hq). }
    rewrite Ef in S1.
    assert (Ep : p = map (fun x => b + 2 * c * x) xs).
    { eapply slopes_unique; [|exact A|exact S1|apply slopes_exact; lia]. rewrite map_length. reflexivity. }
    assert (Epp : pp = map (fun _ => 2 * c) xs).
    { eapply slopes_unique; [|exact A|exact S2|].
      - rewrite Ep, map_length. reflexivity.
      - rewrite Ep. assert (X := slopes_exact xs b (2 * c) 0 ltac:(lia)).
        rewrite (map_ext (parabola b (2 * c) 0) (fun x => b + 2 * c * x)) in X by (intros; unfold parabola; ring).
        rewrite (map_ext (fun x => 2 * c + 2 * 0 * x) (fun _ => 2 * c)) in X by (intros; ring). exact X. }
    rewrite Ep, Epp. f_equal. unfold xs. rewrite !map_map.
    assert (G : forall (l : list (nat * R)) (f g : nat * R -> R), combine (map f l) (map g l) = map (fun q => (f q, g q)) l).
    { clear. induction l as [|q l IH]; intros f g; [reflexivity|]. cbn [map combine]. rewrite IH. reflexivity. }
    rewrite G, map_map. apply map_ext. intros q. cbn [fst snd]. unfold bending. rewrite Rabs_mult, (Rabs_pos_eq 2) by lra. reflexivity. }
  assert (Pos : 0 < cv).
  { rewrite Q. unfold average. rewrite map_length. apply Rdiv_lt_0_compat; [|apply lt_0_INR; lia].
    assert (forall q : nat * R, 0 < 2 * Rabs c / Rpower (1 + (b + 2 * c * x (fst q)) ^ 2) (3 / 2)).
    { intros q. apply Rdiv_lt_0_compat; [|apply exp_pos]. assert (0 < Rabs c) by (apply Rabs_pos_lt; exact Hc). lra. }
    destruct l as [|q l]; [cbn in H2; lia|]. cbn [map fold_right].
    assert (0 <= fold_right Rplus 0 (map (fun q => 2 * Rabs c / Rpower (1 + (b + 2 * c * x (fst q)) ^ 2) (3 / 2)) l)).
    { clear - H. induction l as [|q l IH]; cbn [map fold_right]; [lra|]. specialize (H q). lra. }
    specialize (H q). lra. }
  destruct (Rlt_dec 0 cv); [|lra]. rewrite <- Q. reflexivity.
Qed.

Lemma C70_line_aux : forall vmax nbins row l a b, 0 < vmax -> (length row <= nbins)%nat -> middling 0 row l ->
  Forall (fun q => snd q = a + b * (INR (fst q) * (vmax / (INR nbins - 1)))) l -> compute_curvature vmax nbins [row] = Some [].
Proof.
  intros vmax nbins row l a b Hv Hl M P. destruct (section_spec vmax nbins row Hv Hl) as (cv & E & C).
  unfold compute_curvature. cbn [map all_some]. rewrite E. cbn [option_map filter].
  assert (Q : cv = 0).
  { destruct C as (l' & M' & C). assert (l' = l) by (eapply middling_unique; eassumption). subst l'.
    destruct C as [[_ ?]|(H2 & p & pp & C)]; [assumption|]. cbv zeta in C. destruct C as (S1 & S2 & ->).
    assert (Hs : 0 < vmax / (INR nbins - 1)).
    { apply Rdiv_lt_0_compat; [exact Hv|]. assert (Hn : (3 <= nbins)%nat).
      { assert (length l <= length row)%nat; [|lia]. clear - M. induction M; cbn [length]; lia. }
      assert (INR 3 <= INR nbins) by (apply le_INR; exact Hn). cbn [INR] in *. lra. }
    assert (A := positions_ascending row l _ Hs M). set (xs := map (fun q => INR (fst q) * (vmax / (INR nbins - 1))) l) in *.
    assert (Lx : length xs = length l) by (unfold xs; apply map_length).
    assert (Ef : map snd l = map (parabola a b 0) xs).
    { unfold xs. rewrite map_map. apply map_ext_in. intros q Hq. rewrite Forall_forall in P. rewrite (P q Hq). unfold parabola. ring. }
    rewrite Ef in S1.
    assert (Ep : p = map (parabola b 0 0) xs).
    { eapply slopes_unique; [|exact A|exact S1|].
      - rewrite map_length. reflexivity.
      - assert (X := slopes_exact xs a b 0 ltac:(lia)).
        rewrite (map_ext (fun x => b + 2 * 0 * x) (parabola b 0 0)) in X by (intros; unfold parabola; ring). exact X. }
    assert (Epp : pp = map (fun _ => 0) xs).
    { eapply slopes_unique; [|exact A|exact S2|].
      - rewrite Ep, map_length. reflexivity.
      - rewrite Ep. assert (X := slopes_exact xs b 0 0 ltac:(lia)).
        rewrite (map_ext (fun x => 0 + 2 * 0 * x) (fun _ => 0)) in X by (intros; ring). exact X. }
    rewrite Epp. unfold average.
    assert (Z : forall (ps ys : list R), fold_right Rplus 0 (map (fun q => bending (fst q) (snd q)) (combine ps (map (fun _ => 0) ys))) = 0).
    { clear. induction ps as [|p ps IH]; intros ys; [reflexivity|]. destruct ys as [|y ys]; [reflexivity|]. cbn [map combine fold_right fst snd].
      rewrite IH. unfold bending. rewrite Rabs_R0. unfold Rdiv. ring. }
    rewrite Z. unfold Rdiv. ring. }
  rewrite Q. destruct (Rlt_dec 0 0); [lra|reflexivity].
Qed.
