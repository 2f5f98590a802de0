(** Failures of the spline fit, and cases. *)
From Coq Require Import ZArith List Reals Bool Lra Lia Permutation Sorted Psatz.
From Verif Require Import SplineModel SplineSpec SplineProofs SplineProofs2 SplineProofs3 SplineProofs4.
Import ListNotations.
Local Open Scope R_scope.

Lemma C69_errors_aux : forall (spline : Type) (lsq : list Z -> option spline) at_pixel fuel vmax chi_min seg_min ini n flux,
  0 < vmax -> (2 <= n)%Z ->
  let step := vmax / IZR (n - 1) in
  let r := spline_fit lsq at_pixel fuel vmax chi_min seg_min ini n flux in
  (r = Resolution <-> seg_min <= step) /\
  (step < seg_min -> Rabs ini < step / 2 -> r = ZeroSpacing) /\
  (step < seg_min -> vmax + step / 2 < ini \/ ini < - (step / 2) -> r = NoBreak).
Proof.
  intros spline lsq at_pixel fuel vmax chi_min seg_min ini n flux Hv Hn step r. subst r. unfold spline_fit.
  destruct (Z.ltb_spec n 2) as [|_]; [lia|]. cbv zeta. fold step. change (step_of vmax n) with step.
  assert (Hp : 0 < step) by (apply step_pos; assumption).
  assert (Ev : vmax = IZR (n - 1) * step) by (unfold step; field; apply Rgt_not_eq, IZR_lt; lia).
  destruct (Rle_dec seg_min step) as [L|L].
  { split; [tauto|]. split; intros; lra. }
  apply Rnot_le_lt in L.
  assert (Ex : ini = ini / step * step) by (field; lra). set (x := ini / step) in *.
  assert (Nr := round_nearest x). unfold nearest in Nr. apply nearest_bounds in Nr. set (k := np_round x) in *.
  split.
  { split; [|lra]. intros H. exfalso.
    destruct (initial step seg_min n k) as [l| | | | | | |] eqn:E; try discriminate.
    - assert (Q : forall f l, refine lsq at_pixel f step seg_min chi_min n flux l <> Resolution).
      { clear. induction f as [|f IH]; intros l; cbn [refine]; [discriminate|]. unfold fit.
        destruct (knots_ok n l); [|discriminate]. destruct (lsq l); [|discriminate].
        destruct (knots_ok n (next_inds n l)); [|discriminate]. destruct (lsq (next_inds n l)); [|discriminate].
        destruct (new_breaks _ _ _ _ _ _ _ _ _); [discriminate|apply IH]. }
      specialize (Q fuel l). destruct (refine lsq at_pixel fuel step seg_min chi_min n flux l) as [[? ?]| | | | | | |]; congruence.
    - unfold initial in E. destruct (Z.eqb k 0); [discriminate|]. destruct (if (k <? 0)%Z then [] else arange k n); [discriminate|].
      destruct (Rlt_dec _ _); discriminate. }
  split.
  - intros _ A. unfold Rabs in A. assert (- (1 / 2) < x < 1 / 2) by (destruct (Rcase_abs ini); split; nra).
    assert (k = 0)%Z. { assert (-1 < k < 1)%Z by (split; apply lt_IZR; lra). lia. }
    unfold initial. rewrite (proj2 (Z.eqb_eq k 0)) by assumption. reflexivity.
  - intros _ A.
    assert (C : (n <= k \/ k < 0)%Z).
    { destruct A as [A|A].
      - left. rewrite Ev in A. assert (IZR (n - 1) + 1 / 2 < x) by nra. assert (n - 1 < k)%Z; [apply lt_IZR; lra|lia].
      - right. assert (x < - (1 / 2)) by nra. apply lt_IZR. lra. }
    unfold initial. destruct (Z.eqb_spec k 0); [lia|]. destruct (Z.ltb_spec k 0); [reflexivity|].
    rewrite arange_multiples, Z.div_small by lia. reflexivity.
Qed.

Lemma multiples_breaks : forall n k m, (0 < k)%Z -> (Z.of_nat m * k < n - 1 \/ m = O)%Z -> breaks n (multiples k k m).
Proof.
  intros n k m Hk H. split.
  - unfold multiples. generalize 0%nat. induction m as [|m IH]; intros i; cbn [seq map]; [constructor|].
    constructor; [apply IH; nia|]. apply Forall_forall. intros y Hy. apply in_map_iff in Hy. destruct Hy as (j & <- & Hj).
    apply in_seq in Hj. nia.
  - apply Forall_forall. intros y Hy. apply in_map_iff in Hy. destruct Hy as (j & <- & Hj). apply in_seq in Hj.
    destruct H as [H| ->]; [nia|lia].
Qed.

Lemma last_multiples : forall k m d, last (multiples k k (S m)) d = (k * Z.of_nat (S m))%Z.
Proof.
  intros k m d. unfold multiples. rewrite seq_S, map_app. cbn [map plus]. rewrite last_last. lia.
Qed.

Lemma initial_breaks : forall step seg_min n k l, (2 <= n)%Z -> 0 < step -> 0 < seg_min -> initial step seg_min n k = Done l -> breaks n l.
Proof.
  intros step seg_min n k l Hn Hs Hg H. destruct (initial_spec _ _ _ _ _ Hn Hs H) as (Hk & (m & -> & Hm) & G).
  apply multiples_breaks; [lia|]. destruct m as [|m]; [right; reflexivity|]. left.
  assert (I : In ((k * Z.of_nat (S m))%Z, n) (pairs (all_inds n (multiples k k (S m))))).
  { apply pairs_neighbours. rewrite <- (last_multiples k m 0%Z). unfold all_inds.
    assert (X : multiples k k (S m) <> []) by (rewrite multiples_S; discriminate).
    exists (0%Z :: removelast (multiples k k (S m))), []. cbn [app]. rewrite (app_removelast_last 0%Z X) at 1. rewrite <- app_assoc. reflexivity. }
  specialize (G _ _ I). rewrite Z.ltb_irrefl in G.
  assert (P : 0 < Rmin seg_min (IZR k * step)).
  { apply Rmin_glb_lt; [exact Hg|]. apply Rmult_lt_0_compat; [apply IZR_lt; lia|exact Hs]. }
  assert (0 < n - 1 - k * Z.of_nat (S m))%Z; [|lia]. apply lt_IZR. apply Rmult_lt_reg_r with step; [exact Hs|]. lra.
Qed.

Lemma refine_fits : forall (spline : Type) (lsq : list Z -> option spline) at_pixel step seg_min chi_min n flux, (2 <= n)%Z ->
  (forall br, breaks n br -> lsq br <> None) ->
  forall fuel l, let r := refine lsq at_pixel fuel step seg_min chi_min n flux l in
    (exists p, r = Done p) \/ r = BadKnots \/ r = OutOfFuel.
Proof.
  intros spline lsq at_pixel step seg_min chi_min n flux Hn Hl. induction fuel as [|fuel IH]; intros l; cbn [refine]; cbv zeta; [tauto|].
  unfold fit. destruct (knots_ok n l) eqn:K1; [|tauto]. apply knots_breaks in K1; [|exact Hn]. assert (X := Hl l K1).
  destruct (lsq l); [|congruence]. destruct (knots_ok n (next_inds n l)) eqn:K2; [|tauto]. apply knots_breaks in K2; [|exact Hn].
  assert (Y := Hl _ K2). destruct (lsq (next_inds n l)); [|congruence].
  destruct (new_breaks _ _ _ _ _ _ _ _ _); [left; eexists; reflexivity|apply IH].
Qed.

Lemma C69_knots_aux : forall (spline : Type) (lsq : list Z -> option spline) at_pixel fuel vmax chi_min seg_min ini n flux,
  0 < vmax -> (2 <= n)%Z -> (Z.to_nat n < fuel)%nat ->
  let step := vmax / IZR (n - 1) in
  2 * step < seg_min -> 5 / 2 * step < ini < vmax + step / 2 ->
  (forall br, breaks n br -> lsq br <> None) ->
  exists br s vals, spline_fit lsq at_pixel fuel vmax chi_min seg_min ini n flux = Done (br, s, vals).
Proof.
  intros spline lsq at_pixel fuel vmax chi_min seg_min ini n flux Hv Hn Hf step Hs Hi Hl. unfold spline_fit.
  destruct (Z.ltb_spec n 2) as [|_]; [lia|]. cbv zeta. change (step_of vmax n) with step.
  assert (Hp : 0 < step) by (apply step_pos; assumption).
  assert (Ev : vmax = IZR (n - 1) * step) by (unfold step; field; apply Rgt_not_eq, IZR_lt; lia).
  destruct (Rle_dec seg_min step) as [L|L]; [lra|]. apply Rnot_le_lt in L.
  assert (Ex : ini = ini / step * step) by (field; lra). set (x := ini / step) in *.
  assert (Nr := round_nearest x). unfold nearest in Nr. apply nearest_bounds in Nr. set (k := np_round x) in *.
  assert (Hk : (3 <= k <= n - 1)%Z).
  { rewrite Ev in Hi. assert (5 / 2 < x < IZR (n - 1) + 1 / 2) by (split; nra).
    assert (2 < k)%Z by (apply lt_IZR; lra).
    assert (IZR k < IZR n) by (rewrite minus_IZR in *; lra). match goal with X : IZR k < IZR n |- _ => apply lt_IZR in X end. lia. }
  assert (E : exists l, initial step seg_min n k = Done l).
  { unfold initial. destruct (Z.eqb_spec k 0); [lia|]. destruct (Z.ltb_spec k 0); [lia|]. rewrite arange_multiples.
    assert (D : (1 <= (n - 1) / k)%Z) by (apply Z.div_le_lower_bound; lia).
    destruct (Z.to_nat ((n - 1) / k)) as [|m] eqn:Em; [lia|]. rewrite multiples_S.
    destruct (Rlt_dec _ _); eexists; reflexivity. }
  destruct E as (l & E). rewrite E.
  assert (W : 2 * step < Rmin seg_min (IZR k * step)).
  { apply Rmin_glb_lt; [exact Hs|]. apply Rmult_lt_compat_r; [exact Hp|]. apply IZR_lt. lia. }
  assert (Hw : step < Rmin seg_min (IZR k * step)) by lra. assert (Hg : 0 < seg_min) by lra.
  assert (K := refine_knots spline lsq at_pixel step seg_min chi_min n flux Hn Hp L (Rmin seg_min (IZR k * step)) fuel l
    (Rmin_l _ _) Hw W (initial_breaks _ _ _ _ _ Hn Hp Hg E) (initial_sized _ _ _ _ _ Hn Hp E)). unfold rf in K.
  destruct (refine_ends spline lsq at_pixel step seg_min chi_min n flux Hn Hp L fuel l) as [A _]; [lia|lia|]. unfold rf in A.
  destruct (refine_fits spline lsq at_pixel step seg_min chi_min n flux Hn Hl fuel l) as [([br s] & R)|[R|R]]; try contradiction.
  rewrite R. eauto.
Qed.

(** ** Cases.  A fit which is bad without a breakpoint (or with one), and exact with more. *)
Definition ramp (i : Z) : R := IZR i.
Definition exact_from (few : nat) (s : list Z) (i : Z) : R := if Nat.ltb few (length s) then ramp i else 0.

Ltac open_sum :=
  change (Z.to_nat (6 - 0 + 1)) with 7%nat; change (Z.to_nat (7 - 3 + 1)) with 5%nat; cbn [seq map fold_right];
  repeat match goal with |- context [IZR ?z] => let v := eval vm_compute in z in tryif constr_eq z v then fail else change (IZR z) with (IZR v) end.

Lemma seven : variance 0 6 ramp = 4 /\ residual 0 6 ramp (fun _ => 0) = 91 / 4 /\ residual 0 6 ramp ramp = 0.
Proof.
  assert (A : average 0 6 ramp = 3) by (unfold average, sum_over, ramp; open_sum; lra).
  assert (V : variance 0 6 ramp = 4) by (unfold variance; rewrite A; unfold average, sum_over, ramp; open_sum; lra).
  split; [exact V|]. unfold residual. rewrite V. unfold sum_over, ramp. open_sum. split; lra.
Qed.

Lemma eight : variance 3 7 ramp = 2 /\ residual 3 7 ramp (fun _ => 0) = 135 / 2 /\ residual 3 7 ramp ramp = 0.
Proof.
  assert (A : average 3 7 ramp = 5) by (unfold average, sum_over, ramp; open_sum; lra).
  assert (V : variance 3 7 ramp = 2) by (unfold variance; rewrite A; unfold average, sum_over, ramp; open_sum; lra).
  split; [exact V|]. unfold residual. rewrite V. unfold sum_over, ramp. open_sum. split; lra.
Qed.

Lemma no_gain : forall n chi flux few a b (s s' : list Z), (a <= Z.min b (n - 1))%Z -> 0 < chi ->
  (few < length s)%nat -> (few < length s')%nat -> improves (exact_from few) n chi flux s s' a b = false.
Proof.
  intros n chi flux few a b s s' H C L L'. destruct (improves _ _ _ _ _ _ _ _) eqn:E; [|reflexivity]. exfalso.
  apply improves_spec in E; [|exact H]. destruct E as [_ E].
  assert (Q : exact_from few s = ramp /\ exact_from few s' = ramp).
  { unfold exact_from. rewrite (proj2 (Nat.ltb_lt _ _) L), (proj2 (Nat.ltb_lt _ _) L'). split; reflexivity. }
  destruct Q as [Q1 Q2]. rewrite Q1, Q2 in E. lra.
Qed.

Lemma gain7 : improves (exact_from 0) 7 3 ramp [] [3%Z] 0 7 = true.
Proof.
  apply improves_spec; [lia|]. change (Z.min 7 (7 - 1)) with 6%Z. destruct seven as (V & R1 & R2).
  change (exact_from 0 []) with (fun _ : Z => 0). change (exact_from 0 [3%Z]) with ramp. rewrite V, R1, R2. split; lra.
Qed.

Lemma gain8 : improves (exact_from 1) 8 1 ramp [3%Z] [1; 3; 5]%Z 3 8 = true.
Proof.
  apply improves_spec; [lia|]. change (Z.min 8 (8 - 1)) with 7%Z. destruct eight as (V & R1 & R2).
  change (exact_from 1 [3%Z]) with (fun _ : Z => 0). change (exact_from 1 [1; 3; 5]%Z) with ramp. rewrite V, R1, R2. split; lra.
Qed.

Lemma run7 : spline_fit Some (exact_from 0) 8 6 3 3 4 7 ramp = Done ([4%Z], [4%Z], map ramp [0; 1; 2; 3; 4; 5; 6]%Z).
Proof.
  unfold spline_fit. change (Z.ltb 7 2) with false. cbv iota zeta.
  assert (Es : step_of 6 7 = 1) by (unfold step_of; change (7 - 1)%Z with 6%Z; lra). rewrite Es.
  destruct (Rle_dec 3 1); [lra|]. replace (4 / 1) with (IZR 4) by lra. rewrite round_IZR.
  assert (Ei : initial 1 3 7 4 = Done []).
  { unfold initial. change (Z.eqb 4 0) with false. change (if Z.ltb 4 0 then [] else arange 4 7) with [4%Z]. cbv iota. cbn [last removelast].
    destruct (Rlt_dec _ _) as [|N]; [reflexivity|]. exfalso. apply N. unfold vel. change (7 - 1)%Z with 6%Z. lra. }
  rewrite Ei.
  assert (E1 : new_breaks (exact_from 0) 1 3 3 7 ramp [] [3%Z] [] = [4%Z]).
  { unfold new_breaks. change (pairs (all_inds 7 [])) with [(0, 7)%Z]. change (next_inds 7 []) with [3%Z].
    cbn [length seq combine map fst snd concat]. unfold breakpoint. cbv zeta. cbn [nth mult plus]. rewrite gain7.
    change (Z.min 7 (7 - 1)) with 6%Z. unfold vel.
    destruct (Rle_dec _ _) as [_|N]; [|exfalso; apply N; lra]. destruct (Rle_dec _ _) as [_|N]; [reflexivity|exfalso; apply N; lra]. }
  assert (E2 : new_breaks (exact_from 0) 1 3 3 7 ramp [4%Z] [2; 4; 5]%Z [4%Z] = []).
  { unfold new_breaks. change (pairs (all_inds 7 [4%Z])) with [(0, 4); (4, 7)]%Z.
    cbn [length seq combine map fst snd concat]. unfold breakpoint. cbv zeta.
    rewrite !no_gain by (try lia; try lra; cbn; lia). reflexivity. }
  assert (R : refine Some (exact_from 0) 8 1 3 3 7 ramp [] = Done ([4%Z], [4%Z])).
  { cbn [refine]. unfold fit. change (next_inds 7 []) with [3%Z]. change (knots_ok 7 []) with true. change (knots_ok 7 [3%Z]) with true.
    cbv iota. rewrite E1. change (sort ([] ++ [4%Z])) with [4%Z]. change (next_inds 7 [4%Z]) with [2; 4; 5]%Z.
    change (knots_ok 7 [4%Z]) with true. change (knots_ok 7 [2; 4; 5]%Z) with true. cbv iota. rewrite E2. reflexivity. }
  rewrite R. reflexivity.
Qed.

Lemma run8 : spline_fit Some (exact_from 1) 9 7 1 2 3 8 ramp = BadKnots.
Proof.
  unfold spline_fit. change (Z.ltb 8 2) with false. cbv iota zeta.
  assert (Es : step_of 7 8 = 1) by (unfold step_of; change (8 - 1)%Z with 7%Z; lra). rewrite Es.
  destruct (Rle_dec 2 1); [lra|]. replace (3 / 1) with (IZR 3) by lra. rewrite round_IZR.
  assert (Ei : initial 1 2 8 3 = Done [3%Z]).
  { unfold initial. change (Z.eqb 3 0) with false. change (if Z.ltb 3 0 then [] else arange 3 8) with [3; 6]%Z. cbv iota. cbn [last removelast].
    destruct (Rlt_dec _ _) as [|N]; [reflexivity|]. exfalso. apply N. unfold vel. change (8 - 1)%Z with 7%Z. lra. }
  rewrite Ei.
  assert (E1 : new_breaks (exact_from 1) 1 2 1 8 ramp [3%Z] [1; 3; 5]%Z [3%Z] = [6%Z]).
  { unfold new_breaks. change (pairs (all_inds 8 [3%Z])) with [(0, 3); (3, 8)]%Z. change (next_inds 8 [3%Z]) with [1; 3; 5]%Z.
    cbn [length seq combine map fst snd concat]. unfold breakpoint. cbv zeta. cbn [nth mult plus]. rewrite gain8.
    change (Z.min 8 (8 - 1)) with 7%Z. change (Z.min 3 (8 - 1)) with 3%Z. unfold vel.
    destruct (Rle_dec 2 (7 * 1 - 5 * 1)) as [_|N]; [|exfalso; apply N; lra]. destruct (Rle_dec 2 (5 * 1 - 3 * 1)) as [_|N]; [|exfalso; apply N; lra].
    destruct (Rle_dec 2 (1 * 1 - 0 * 1)) as [N|_]; [exfalso; lra|].
    destruct (improves _ _ _ _ _ _ _ _); [destruct (Rle_dec _ _)|]; reflexivity. }
  assert (R : refine Some (exact_from 1) 9 1 2 1 8 ramp [3%Z] = BadKnots).
  { cbn [refine]. unfold fit. change (next_inds 8 [3%Z]) with [1; 3; 5]%Z. change (knots_ok 8 [3%Z]) with true. change (knots_ok 8 [1; 3; 5]%Z) with true.
    cbv iota. rewrite E1. change (sort ([3%Z] ++ [6%Z])) with [3; 6]%Z. change (next_inds 8 [3; 6]%Z) with [1; 3; 4; 6; 7]%Z.
    change (knots_ok 8 [3; 6]%Z) with true. change (knots_ok 8 [1; 3; 4; 6; 7]%Z) with false. reflexivity. }
  rewrite R. reflexivity.
Qed.

(** ** Why a breakpoint was added *)
Lemma left_end : forall n l a b, (2 <= n)%Z -> breaks n l -> In (a, b) (pairs (all_inds n l)) -> (a < n - 1)%Z.
Proof.
  intros n br' a b Hn B N.
  assert (Ia : In a (0%Z :: br')).
  { apply pairs_neighbours in N. destruct N as (l1 & l2 & Eq). unfold all_inds in Eq.
    assert (Eq' : (0%Z :: br') ++ [n] = (l1 ++ [a]) ++ b :: l2) by (rewrite <- app_assoc; exact Eq).
    destruct (exists_last (l := b :: l2) ltac:(discriminate)) as (l3 & z & Ez). rewrite Ez in Eq'. rewrite app_assoc in Eq'.
    apply app_inj_tail in Eq'. destruct Eq' as [E1 E2]. rewrite E1. apply in_or_app. left. apply in_or_app. right. left. reflexivity. }
  destruct Ia as [<-|Ia]; [lia|]. destruct B as [_ B2]. rewrite Forall_forall in B2. specialize (B2 a Ia). lia.
Qed.

Lemma refine_added : forall (spline : Type) (lsq : list Z -> option spline) at_pixel step seg_min chi_min n flux,
  (2 <= n)%Z -> 0 < step -> step < seg_min -> forall fuel l br s,
  refine lsq at_pixel fuel step seg_min chi_min n flux l = Done (br, s) ->
  incl l br /\
  forall x, In x br -> In x l \/
    exists before a b s0 next s1, incl before br /\ ~ In x before /\ breaks n before /\ lsq before = Some s0 /\ halved n before next /\ lsq next = Some s1 /\
      neighbours (0%Z :: before ++ [n]) a b /\ (a + b - 1 <= 2 * x <= a + b + 1)%Z /\
      let e := Z.min b (n - 1) in let m := ((a + b) / 2)%Z in
      variance a e flux <> 0 /\ chi_min < residual a e flux (at_pixel s0) - residual a e flux (at_pixel s1) /\
      seg_min <= IZR (e - m) * step /\ seg_min <= IZR (m - a) * step.
Proof.
  intros spline lsq at_pixel step seg_min chi_min n flux Hn Hp Hs. induction fuel as [|fuel IH]; intros l br s H; [discriminate|].
  cbn [refine] in H. unfold fit at 1 in H. destruct (knots_ok n l) eqn:K; [|discriminate].
  apply knots_breaks in K; [|exact Hn]. destruct (lsq l) as [cur|] eqn:El; [|discriminate].
  unfold fit at 1 in H. destruct (knots_ok n (next_inds n l)) eqn:Kn; [|discriminate].
  destruct (lsq (next_inds n l)) as [next|] eqn:En; [|discriminate].
  destruct (new_breaks at_pixel step seg_min chi_min n flux cur next l) as [|y bps] eqn:Nb.
  - injection H as <- <-. split; [apply incl_refl|]. intros x Hx. left. exact Hx.
  - destruct (IH _ _ _ H) as [I1 I2]. assert (I3 : incl l br).
    { intros z Hz. apply I1. eapply Permutation_in; [apply Permutation_sym, sort_perm|]. apply in_or_app. left. exact Hz. }
    split; [exact I3|]. intros x Hx. destruct (I2 x Hx) as [Hl|E]; [|right; exact E].
    destruct (in_dec Z.eq_dec x l) as [Hi|Hi]; [left; exact Hi|]. right.
    assert (Hb : In x (y :: bps)).
    { eapply Permutation_in in Hl; [|apply sort_perm]. apply in_app_or in Hl. destruct Hl as [Hl|Hl]; [contradiction|exact Hl]. }
    rewrite <- Nb in Hb. rewrite (new_added spline at_pixel) in Hb. apply added_in in Hb. destruct Hb as (j & a & b & Hj & Hb).
    assert (N : In (a, b) (pairs (all_inds n l))) by (eapply nth_error_In; exact Hj).
    assert (Bd := pairs_bounded n Hn l a b K N). assert (C := rising_climbing _ (all_rising n l Hn K)). assert (Le := left_end n l a b Hn K N).
    assert (Rb := all_rising n l Hn K). rewrite rising_pairs, Forall_forall in Rb. assert (Lt := Rb _ N). cbn [fst snd] in Lt.
    destruct (bp_spec spline at_pixel step seg_min chi_min n flux Hp Hs cur next l j a b C Hj ltac:(lia)) as [Z|(Z & Im & S1 & S2 & _)];
      rewrite Z in Hb; [destruct Hb|]. destruct Hb as [<-|[]].
    apply improves_spec in Im; [|lia]. destruct Im as [V G].
    exists l, a, b, cur, (next_inds n l), next. split; [exact I3|]. split; [exact Hi|]. split; [exact K|]. split; [exact El|].
    split; [apply next_halved; assumption|]. split; [exact En|]. split; [apply pairs_neighbours; exact N|].
    split.
    { assert (D := Z.div_mod (a + b) 2 ltac:(lia)). assert (M := Z.mod_pos_bound (a + b) 2 ltac:(lia)).
      destruct (middle_cases a b) as [Q|[Q Q']]; rewrite Q; lia. }
    cbv zeta. auto.
Qed.

Lemma C69_added_aux : forall (spline : Type) (lsq : list Z -> option spline) at_pixel fuel vmax chi_min seg_min ini n flux br s vals,
  0 < vmax -> spline_fit lsq at_pixel fuel vmax chi_min seg_min ini n flux = Done (br, s, vals) ->
  let step := vmax / IZR (n - 1) in
  forall x, In x br -> (exists k i, nearest (ini / step) k /\ (1 <= i)%Z /\ x = (k * i)%Z) \/
    exists before a b s0 next s1, incl before br /\ ~ In x before /\ breaks n before /\ lsq before = Some s0 /\ halved n before next /\ lsq next = Some s1 /\
      neighbours (0%Z :: before ++ [n]) a b /\ (a + b - 1 <= 2 * x <= a + b + 1)%Z /\
      let e := Z.min b (n - 1) in let m := ((a + b) / 2)%Z in
      variance a e flux <> 0 /\ chi_min < residual a e flux (at_pixel s0) - residual a e flux (at_pixel s1) /\
      seg_min <= IZR (e - m) * step /\ seg_min <= IZR (m - a) * step.
Proof.
  intros spline lsq at_pixel fuel vmax chi_min seg_min ini n flux br s vals Hv H. unfold spline_fit in H.
  destruct (Z.ltb_spec n 2) as [|Hn]; [discriminate|]. cbv zeta in H.
  destruct (Rle_dec seg_min (step_of vmax n)) as [|Hs]; [discriminate|]. apply Rnot_le_lt in Hs.
  assert (Hp := step_pos vmax n Hv Hn). cbv zeta. change (vmax / IZR (n - 1)) with (step_of vmax n). set (step := step_of vmax n) in *.
  destruct (initial step seg_min n (np_round (ini / step))) as [l| | | | | | |] eqn:E; try discriminate.
  destruct (refine lsq at_pixel fuel step seg_min chi_min n flux l) as [[br' s']| | | | | | |] eqn:R; try discriminate.
  injection H as <- <- <-. intros x Hx.
  destruct (refine_added spline lsq at_pixel step seg_min chi_min n flux Hn Hp Hs fuel l br' s' R) as [_ G].
  destruct (G x Hx) as [Hl|G']; [left|right; exact G'].
  destruct (initial_spec _ _ _ _ _ Hn Hp E) as (Hk & (m & -> & Hm) & _). unfold multiples in Hl. apply in_map_iff in Hl.
  destruct Hl as (i & <- & _). exists (np_round (ini / step)), (Z.of_nat i + 1)%Z. split; [apply round_nearest|]. split; [lia|ring].
Qed.
