(** The loop of the spline fit. *)
From Coq Require Import ZArith List Reals Bool Lra Lia Permutation Sorted Psatz.
From Verif Require Import SplineModel SplineSpec SplineProofs.
Import ListNotations.
Local Open Scope R_scope.

Lemma vel_diff : forall step a b, vel step b - vel step a = IZR (b - a) * step.
Proof. intros. unfold vel. rewrite minus_IZR. ring. Qed.

Lemma two_steps : forall step seg_min d, 0 < step -> step < seg_min -> seg_min <= IZR d * step -> (2 <= d)%Z.
Proof.
  intros step seg_min d H0 H1 H2. assert (1 < d)%Z; [|lia]. apply lt_IZR.
  apply Rmult_lt_reg_r with step; [assumption|]. lra.
Qed.

Section Loop.
Variable spline : Type.
Variable lsq : list Z -> option spline.
Variable at_pixel : spline -> Z -> R.
Variables (step seg_min chi_min : R) (n : Z) (flux : Z -> R).
Hypothesis Hn : (2 <= n)%Z.
Hypothesis Hstep : 0 < step.
Hypothesis Hseg : step < seg_min.

Definition bp (cur next : spline) (l : list Z) := breakpoint at_pixel step seg_min chi_min n flux cur next (next_inds n l).

Lemma new_added : forall cur next l, new_breaks at_pixel step seg_min chi_min n flux cur next l = added (bp cur next l) 0 (all_inds n l).
Proof. reflexivity. Qed.

(** What an added breakpoint satisfies. *)
Lemma bp_spec : forall cur next l i a b, climbing (all_inds n l) -> nth_error (pairs (all_inds n l)) i = Some (a, b) -> (b <= n)%Z ->
  bp cur next l i a b = [] \/
  (bp cur next l i a b = [middle a b] /\ improves at_pixel n chi_min flux cur next a b = true /\
   seg_min <= IZR ((a + b) / 2 - a) * step /\ seg_min <= IZR (Z.min b (n - 1) - (a + b) / 2) * step /\
   (a < middle a b < b)%Z /\ (middle a b < n - 1)%Z /\
   seg_min <= IZR (middle a b - a) * step /\
   (if Z.ltb b n then seg_min <= IZR (b - middle a b) * step else seg_min - step <= IZR (n - 1 - middle a b) * step)).
Proof.
  intros cur next l i a b Hc Hp Hb. unfold bp, breakpoint. rewrite (next_nth n l i a b Hc Hp). cbv zeta.
  destruct (improves _ _ _ _ _ _ _ _); [|left; reflexivity].
  destruct (Rle_dec seg_min (vel step (Z.min b (n - 1)) - vel step ((a + b) / 2))) as [H1|]; [|left; reflexivity].
  destruct (Rle_dec seg_min (vel step ((a + b) / 2) - vel step a)) as [H2|]; [|left; reflexivity].
  right. split; [reflexivity|]. split; [reflexivity|]. rewrite vel_diff in H1, H2. split; [exact H2|]. split; [exact H1|].
  set (k := ((a + b) / 2)%Z) in *.
  assert (T1 := two_steps _ _ _ Hstep Hseg H1). assert (T2 := two_steps _ _ _ Hstep Hseg H2).
  destruct (middle_cases a b) as [M|[M O]]; fold k in M; try fold k in O; rewrite M.
  - split; [lia|]. split; [lia|]. split; [exact H2|]. destruct (Z.ltb_spec b n).
    + rewrite Z.min_l in H1 by lia. exact H1.
    + assert (b = n) by lia. subst b. rewrite Z.min_r in H1 by lia. lra.
  - split; [lia|]. split; [lia|]. split.
    + replace (k + 1 - a)%Z with (k - a + 1)%Z by lia. rewrite plus_IZR. lra.
    + destruct (Z.ltb_spec b n).
      * replace (b - (k + 1))%Z with (k - a)%Z by lia. exact H2.
      * assert (b = n) by lia. subst b. rewrite Z.min_r in H1 by lia.
        replace (n - 1 - (k + 1))%Z with (n - 1 - k - 1)%Z by lia. rewrite minus_IZR. lra.
Qed.

Lemma pairs_bounded : forall l a b, breaks n l -> In (a, b) (pairs (all_inds n l)) -> (0 <= a /\ b <= n)%Z.
Proof.
  intros l a b [B1 B2] H. apply pairs_neighbours in H. destruct H as (l1 & l2 & E).
  assert (A : Forall (fun x => (0 <= x <= n)%Z) (all_inds n l)).
  { unfold all_inds. constructor; [lia|]. apply Forall_app. split; [eapply Forall_impl; [|exact B2]; intros; cbv beta in *; lia|].
    constructor; [lia|constructor]. }
  rewrite E in A. apply Forall_app in A. destruct A as [_ A]. inversion A as [|? ? A1 A2]; subst. inversion A2; subst. lia.
Qed.

Lemma bp_fine : forall cur next l, breaks n l -> fine (bp cur next l) 0 (all_inds n l).
Proof.
  intros cur next l B j a b P. assert (Hb := pairs_bounded l a b B ltac:(eapply nth_error_In; exact P)).
  assert (C := rising_climbing _ (all_rising n l Hn B)).
  destruct (bp_spec cur next l j a b C P ltac:(lia)) as [H|(H & _ & _ & _ & Hm & _)]; [left; exact H|].
  right. exists (middle a b). split; [exact H|exact Hm].
Qed.

(** The minimum size of the segments. *)
Definition sized (w : R) (l : list Z) : Prop :=
  forall a b, In (a, b) (pairs (all_inds n l)) ->
    if Z.ltb b n then w <= IZR (b - a) * step else w - step <= IZR (n - 1 - a) * step.

Lemma added_in : forall f l x, In x (added f 0 l) -> exists j a b, nth_error (pairs l) j = Some (a, b) /\ In x (f j a b).
Proof.
  intros f l x H. unfold added in H. apply in_concat in H. destruct H as (k & Hk & Hx). apply in_map_iff in Hk.
  destruct Hk as ((j & (a & b)) & <- & Hc). cbn [fst snd] in Hx. exists j, a, b. split; [|exact Hx].
  clear Hx. apply In_nth_error in Hc. destruct Hc as (q & Hq).
  assert (G : forall (A : Type) (ps : list A) i q j p, nth_error (combine (seq i (length ps)) ps) q = Some (j, p) -> nth_error ps (j - i) = Some p /\ (i <= j)%nat).
  { intros A. induction ps as [|p0 ps IH]; intros i q0 j0 p E; [destruct q0; discriminate|].
    cbn [length seq combine] in E. destruct q0 as [|q0]; cbn [nth_error] in E.
    - injection E as <- <-. rewrite Nat.sub_diag. split; [reflexivity|lia].
    - destruct (IH (S i) q0 j0 p E) as [E1 E2]. replace (j0 - i)%nat with (S (j0 - S i)) by lia. split; [exact E1|lia]. }
  destruct (G _ _ _ _ _ _ Hq) as [G1 _]. rewrite Nat.sub_0_r in G1. exact G1.
Qed.

Lemma step_breaks : forall cur next l, breaks n l ->
  breaks n (sort (l ++ new_breaks at_pixel step seg_min chi_min n flux cur next l)).
Proof.
  intros cur next l B. rewrite new_added. assert (F := bp_fine cur next l B).
  assert (E := all_spliced _ n l Hn B F). assert (Rs := splice_rising _ _ 0%nat (all_rising n l Hn B) F).
  rewrite <- E in Rs. split.
  - clear - Rs. revert Rs. generalize (sort (l ++ added (bp cur next l) 0 (all_inds n l))). intros s Rs.
    unfold all_inds in Rs. apply rising_sorted in Rs. inversion Rs as [|? ? Ss _]; subst. clear - Ss.
    induction s as [|x s IH]; [constructor|].
    cbn [app] in Ss. inversion Ss as [|? ? P Q]; subst. constructor; [apply IH; exact P|]. apply Forall_app in Q. apply Q.
  - eapply Permutation_Forall; [apply Permutation_sym, sort_perm|]. apply Forall_app. split; [apply B|].
    apply Forall_forall. intros x Hx. destruct (added_in _ _ _ Hx) as (j & a & b & P & I).
    assert (Hb := pairs_bounded l a b B ltac:(eapply nth_error_In; exact P)).
    destruct (bp_spec cur next l j a b (rising_climbing _ (all_rising n l Hn B)) P ltac:(lia)) as [H|(H & _ & _ & _ & Hm & Hl & _)];
      rewrite H in I; [destruct I|]. destruct I as [<-|[]]. lia.
Qed.

Lemma step_sized : forall w cur next l, w <= seg_min -> breaks n l -> sized w l ->
  sized w (sort (l ++ new_breaks at_pixel step seg_min chi_min n flux cur next l)).
Proof.
  intros w cur next l Hw B Sz x y Hin. rewrite new_added in Hin. assert (F := bp_fine cur next l B).
  rewrite (all_spliced _ n l Hn B F) in Hin.
  destruct (splice_pairs _ _ _ _ _ F Hin) as (j & a & b & P & Q).
  assert (Pin : In (a, b) (pairs (all_inds n l))) by (eapply nth_error_In; exact P).
  assert (Hb := pairs_bounded l a b B Pin).
  destruct Q as [(-> & -> & _)|(m & Hm & Q)]; [apply Sz; exact Pin|]. rewrite Nat.add_0_l in Hm.
  destruct (bp_spec cur next l j a b (rising_climbing _ (all_rising n l Hn B)) P ltac:(lia)) as [H|(H & _ & _ & _ & G1 & G2 & G3 & G4)];
    rewrite H in Hm; [discriminate|]. injection Hm as <-.
  destruct Q as [(-> & ->)|(-> & ->)].
  - destruct (Z.ltb_spec (middle a b) n); [lra|lia].
  - destruct (Z.ltb b n); lra.
Qed.

Lemma breaks_length : forall l, breaks n l -> (Z.of_nat (length l) <= n - 2)%Z.
Proof.
  intros l [B1 B2].
  assert (G : forall l lo, (lo < n - 1)%Z -> StronglySorted Z.lt l -> Forall (fun x => (lo < x < n - 1)%Z) l -> (Z.of_nat (length l) <= n - 2 - lo)%Z).
  { induction l0 as [|x l0 IH]; intros lo Hlo Ss F; [cbn; lia|]. inversion Ss as [|? ? A B]; subst. inversion F as [|? ? C D]; subst.
    cbn [length]. assert (Z.of_nat (length l0) <= n - 2 - x)%Z; [|lia]. apply IH; [lia|exact A|].
    rewrite Forall_forall in *. intros y Hy. specialize (B y Hy). specialize (D y Hy). cbv beta in *. lia. }
  specialize (G l 0%Z ltac:(lia) B1 B2). lia.
Qed.

Lemma sort_length : forall l, length (sort l) = length l.
Proof. intros l. apply Permutation_length, sort_perm. Qed.

Definition rf := refine lsq at_pixel.

(** The result with enough fuel. *)
Lemma refine_ends : forall fuel l, (Z.to_nat n < fuel + length l)%nat -> (0 < fuel)%nat ->
  rf fuel step seg_min chi_min n flux l <> OutOfFuel /\
  forall fuel', (fuel <= fuel')%nat -> rf fuel' step seg_min chi_min n flux l = rf fuel step seg_min chi_min n flux l.
Proof.
  unfold rf. induction fuel as [|fuel IH]; intros l Hl Hf; [lia|].
  assert (Fu : forall fuel', (S fuel <= fuel')%nat -> exists f, fuel' = S f /\ (fuel <= f)%nat).
  { intros [|f] H; [lia|]. exists f. split; [reflexivity|lia]. }
  assert (NF : forall k, fit lsq n k <> OutOfFuel).
  { intros k. unfold fit. destruct (knots_ok n k); [destruct (lsq k)|]; discriminate. }
  assert (Same : forall f, refine lsq at_pixel (S f) step seg_min chi_min n flux l =
     match fit lsq n l with
     | Done cur => match fit lsq n (next_inds n l) with
       | Done next => match new_breaks at_pixel step seg_min chi_min n flux cur next l with
              | [] => Done (l, cur)
              | (_ :: _) as bp => refine lsq at_pixel f step seg_min chi_min n flux (sort (l ++ bp)) end
       | Resolution => Resolution | OnePixel => OnePixel | ZeroSpacing => ZeroSpacing | NoBreak => NoBreak
       | BadKnots => BadKnots | FitFails => FitFails | OutOfFuel => OutOfFuel end
     | Resolution => Resolution | OnePixel => OnePixel | ZeroSpacing => ZeroSpacing | NoBreak => NoBreak
     | BadKnots => BadKnots | FitFails => FitFails | OutOfFuel => OutOfFuel end) by (intros f; reflexivity).
  rewrite (Same fuel).
  destruct (fit lsq n l) as [cur| | | | | | |] eqn:Fl;
    try (split; [discriminate|]; intros fuel' H; destruct (Fu _ H) as (f & -> & _); rewrite Same; reflexivity).
  2:{ exfalso. eapply NF. exact Fl. }
  assert (K : breaks n l).
  { apply knots_breaks; [exact Hn|]. unfold fit in Fl. destruct (knots_ok n l); [reflexivity|discriminate]. }
  destruct (fit lsq n (next_inds n l)) as [next| | | | | | |] eqn:Fn;
    try (split; [discriminate|]; intros fuel' H; destruct (Fu _ H) as (f & -> & _); rewrite Same; reflexivity).
  2:{ exfalso. eapply NF. exact Fn. }
  destruct (new_breaks at_pixel step seg_min chi_min n flux cur next l) as [|x bps] eqn:Nb.
  - split; [discriminate|]. intros fuel' H. destruct (Fu _ H) as (f & -> & _). rewrite Same. reflexivity.
  - assert (B' : breaks n (sort (l ++ x :: bps))) by (rewrite <- Nb; apply step_breaks; exact K).
    assert (Lb := breaks_length _ B'). rewrite sort_length, app_length in Lb. cbn [length] in Lb.
    destruct (IH (sort (l ++ x :: bps))) as [I1 I2]; [rewrite sort_length, app_length; cbn [length]; lia|lia|].
    split; [exact I1|]. intros fuel' H. destruct (Fu _ H) as (f & -> & Hf'). rewrite Same. apply I2. exact Hf'.
Qed.

(** What the result satisfies. *)
Lemma refine_result : forall w fuel l br s, w <= seg_min -> (breaks n l -> sized w l) ->
  rf fuel step seg_min chi_min n flux l = Done (br, s) ->
  breaks n br /\ sized w br /\ lsq br = Some s /\ incl l br /\
  exists next, knots_ok n (next_inds n br) = true /\ lsq (next_inds n br) = Some next /\
    new_breaks at_pixel step seg_min chi_min n flux s next br = [].
Proof.
  intros w. unfold rf. induction fuel as [|fuel IH]; intros l br s Hw Sz H; [discriminate|].
  cbn [refine] in H. unfold fit at 1 in H. destruct (knots_ok n l) eqn:K; [|discriminate].
  apply knots_breaks in K; [|exact Hn]. destruct (lsq l) as [cur|] eqn:El; [|discriminate].
  unfold fit at 1 in H. destruct (knots_ok n (next_inds n l)) eqn:Kn; [|discriminate].
  destruct (lsq (next_inds n l)) as [next|] eqn:En; [|discriminate].
  destruct (new_breaks at_pixel step seg_min chi_min n flux cur next l) as [|x bps] eqn:Nb.
  - injection H as <- <-. split; [exact K|]. split; [apply Sz; exact K|]. split; [exact El|]. split; [apply incl_refl|]. exists next. auto.
  - destruct (IH (sort (l ++ x :: bps)) br s Hw) as (A & B & C & D & E).
    + intros _. rewrite <- Nb. apply step_sized; [exact Hw|exact K|apply Sz; exact K].
    + exact H.
    + split; [exact A|]. split; [exact B|]. split; [exact C|]. split; [|exact E].
      intros y Hy. apply D. eapply Permutation_in; [apply Permutation_sym, sort_perm|]. apply in_or_app. left. exact Hy.
Qed.

(** Valid knots at every turn if the segments are long enough. *)
Lemma roomy_next : forall l, breaks n l ->
  (forall a b, In (a, b) (pairs (all_inds n l)) -> if Z.ltb b n then (2 <= b - a)%Z else (2 <= n - 1 - a)%Z) ->
  knots_ok n (next_inds n l) = true.
Proof.
  intros l B G. apply knots_breaks; [exact Hn|]. assert (R := all_rising n l Hn B).
  rewrite next_weave by (apply rising_climbing; exact R).
  assert (W : forall l0, rising l0 -> (forall a b, In (a, b) (pairs l0) -> (2 <= b - a)%Z) -> rising (weave l0)).
  { induction l0 as [|a l0 IH]; intros R0 G0; [exact I|]. destruct l0 as [|b l0]; [exact I|].
    change (weave (a :: b :: l0)) with (a :: ((a + b) / 2)%Z :: weave (b :: l0)).
    change (pairs (a :: b :: l0)) with ((a, b) :: pairs (b :: l0)) in G0.
    assert (G1 := G0 a b (or_introl eq_refl)). destruct R0 as [R1 R2].
    specialize (IH R2 (fun x y H => G0 x y (or_intror H))).
    assert (E : exists l', weave (b :: l0) = b :: l') by (destruct l0; eexists; reflexivity).
    destruct E as (l' & E). rewrite E in *.
    assert (D := Z.div_mod (a + b) 2 ltac:(lia)). assert (M := Z.mod_pos_bound (a + b) 2 ltac:(lia)).
    split; [lia|]. split; [lia|exact IH]. }
  assert (Rw : rising (weave (all_inds n l))).
  { apply W; [exact R|]. intros a b H. specialize (G a b H). assert (Hb := pairs_bounded l a b B H). destruct (Z.ltb_spec b n); lia. }
  assert (Wt : forall l0 z, exists w, weave (l0 ++ [z]) = w ++ [z]).
  { induction l0 as [|x l0 IH]; intros z; [exists []; reflexivity|]. destruct l0 as [|y l0].
    - exists [x; ((x + z) / 2)%Z]. reflexivity.
    - destruct (IH z) as (w & E). cbn [app] in *. exists (x :: ((x + y) / 2)%Z :: w).
      change (weave (x :: y :: l0 ++ [z])) with (x :: ((x + y) / 2)%Z :: weave (y :: l0 ++ [z])). rewrite E. reflexivity. }
  assert (Sh : exists ws, weave (all_inds n l) = 0%Z :: ws ++ [n]).
  { destruct (Wt (0%Z :: l) n) as (w & E). change ((0%Z :: l) ++ [n]) with (all_inds n l) in E.
    destruct w as [|w0 ws]; cbn [app] in E.
    - exfalso. unfold all_inds in E. destruct l; discriminate E.
    - assert (w0 = 0%Z) by (unfold all_inds in E; destruct l; injection E; intros; congruence). subst w0. exists ws. exact E. }
  destruct Sh as (ws & E). rewrite E in *. cbn [tl]. rewrite removelast_last.
  assert (Ss : StronglySorted Z.lt (0%Z :: ws ++ [n])) by (apply rising_sorted; exact Rw).
  inversion Ss as [|? ? S1 S2]; subst. apply Forall_app in S2. destruct S2 as [S2 _].
  split.
  - clear - S1. induction ws as [|x ws IH]; [constructor|]. cbn [app] in S1. inversion S1 as [|? ? A B]; subst.
    constructor; [apply IH; exact A|]. apply Forall_app in B. apply B.
  - apply Forall_forall. intros x Hx. rewrite Forall_forall in S2. split; [apply S2; exact Hx|].
    assert (I : In x (weave (all_inds n l))) by (rewrite E; right; apply in_or_app; left; exact Hx).
    eapply Permutation_in in I; [|apply weave_perm]. apply in_app_or in I. destruct I as [I|I].
    + unfold all_inds in I. destruct I as [I|I]; [subst x; specialize (S2 0%Z Hx); lia|].
      apply in_app_or in I. destruct I as [I|[I|[]]].
      * destruct B as [_ B2]. rewrite Forall_forall in B2. apply B2. exact I.
      * subst x. exfalso. clear - S1 Hx. induction ws as [|w ws IH]; [destruct Hx|]. cbn [app] in S1. inversion S1 as [|? ? A B]; subst.
        destruct Hx as [->|Hx]; [|apply IH; assumption]. apply Forall_app in B. destruct B as [_ B]. inversion B; lia.
    + apply in_map_iff in I. destruct I as ((a & b) & <- & I). cbn [fst snd]. specialize (G a b I).
      assert (Hb := pairs_bounded l a b B I).
      assert (D := Z.div_mod (a + b) 2 ltac:(lia)). assert (M := Z.mod_pos_bound (a + b) 2 ltac:(lia)).
      destruct (Z.ltb_spec b n); [|assert (b = n) by lia; subst b; lia].
      assert (Bb : (b < n - 1)%Z).
      { assert (Ib : In b (all_inds n l)).
        { apply pairs_neighbours in I. destruct I as (l1 & l2 & Eq). rewrite Eq. apply in_or_app. right. right. left. reflexivity. }
        unfold all_inds in Ib. destruct Ib as [Ib|Ib]; [lia|]. apply in_app_or in Ib. destruct Ib as [Ib|[Ib|[]]]; [|lia].
        destruct B as [_ B2]. rewrite Forall_forall in B2. apply B2. exact Ib. }
      lia.
Qed.

Lemma refine_knots : forall w fuel l, w <= seg_min -> step < w -> 2 * step < w -> breaks n l -> sized w l ->
  rf fuel step seg_min chi_min n flux l <> BadKnots.
Proof.
  intros w. unfold rf. induction fuel as [|fuel IH]; intros l Hw H1 H2 B Sz; [discriminate|].
  cbn [refine]. unfold fit at 1. rewrite (proj2 (knots_breaks n l Hn) B). destruct (lsq l) as [cur|]; [|discriminate].
  unfold fit at 1. rewrite roomy_next; [|exact B|].
  - destruct (lsq (next_inds n l)) as [next|]; [|discriminate].
    destruct (new_breaks at_pixel step seg_min chi_min n flux cur next l) as [|x bps] eqn:Nb; [discriminate|].
    apply IH; try assumption; rewrite <- Nb; [apply step_breaks; exact B|apply step_sized; assumption].
  - intros a b I. specialize (Sz a b I). destruct (Z.ltb b n).
    + assert (2 < b - a)%Z; [|lia]. apply lt_IZR. apply Rmult_lt_reg_r with step; [assumption|]. lra.
    + assert (1 < n - 1 - a)%Z; [|lia]. apply lt_IZR. apply Rmult_lt_reg_r with step; [assumption|]. lra.
Qed.
End Loop.
