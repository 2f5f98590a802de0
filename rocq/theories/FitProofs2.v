(** Proofs about the Voigt profile fitter: the re-fit and the numbers reported. *)
From Coq Require Import ZArith List Reals Arith Lra Lia Bool Permutation Sorting.Sorted.
From Flocq Require Import Core.Raux Core.Generic_fmt Core.Round_NE.
From Verif Require Import AbsorptionSpec FilterModel FilterProofs FitModel FitSpec FitProofs.
Import ListNotations.
Local Open Scope R_scope.

(** ** C62: the re-fit *)

Lemma ratio_above_spec : forall signif f k, ratio_above (f k) (earlier f k) signif = false <-> significant signif f k.
Proof.
  intros signif f k. unfold ratio_above, significant. destruct (Req_EM_T (earlier f k) 0) as [E|E].
  - rewrite rltb_false. split; [intros H; split; [congruence|intros _; lra]|intros (_ & H); specialize (H E); lra].
  - rewrite rltb_false. split; [intros H; split; [intros _; lra|congruence]|intros (H & _); specialize (H E); lra].
Qed.

Lemma inputs_length : forall k cs, length (inputs k cs) = (Nat.min k (length cs) * 3)%nat.
Proof. intros. unfold inputs. rewrite !app_length, !map_length, firstn_length. lia. Qed.

Lemma refit_loop_spec : forall simplex signif cs (F : nat -> found),
  (forall k, simplex (inputs k cs) = Some (F k)) ->
  forall rounds maxpk total result prior,
  (3 <= maxpk)%nat -> total = (maxpk - 1)%nat -> result = F (maxpk - 1)%nat -> prior = earlier (fun k => r_fun (F k)) maxpk ->
  exists total', refit_loop simplex rounds maxpk signif cs total result prior = Some (total', F total') /\
    (maxpk - 1 <= total' <= maxpk - 1 + rounds)%nat /\
    (forall k, (maxpk <= k <= total')%nat -> significant signif (fun k => r_fun (F k)) k) /\
    (forall k, (maxpk <= k < total')%nat -> r_ok (F k) = true) /\
    (total' = (maxpk - 1 + rounds)%nat \/ ((maxpk <= total')%nat /\ r_ok (F total') = false) \/
     ~ significant signif (fun k => r_fun (F k)) (S total')).
Proof.
  intros simplex signif cs F HF rounds. induction rounds as [|rounds IH]; intros maxpk total result prior H3 -> -> ->.
  - exists (maxpk - 1)%nat. split; [reflexivity|]. split; [lia|]. split; [intros; lia|]. split; [intros; lia|]. left. lia.
  - cbn [refit_loop]. rewrite HF.
    change (r_fun (F maxpk)) with ((fun k => r_fun (F k)) maxpk) at 1.
    destruct (ratio_above _ _ signif) eqn:Er.
    + exists (maxpk - 1)%nat. split; [reflexivity|]. split; [lia|]. split; [intros; lia|]. split; [intros; lia|]. right. right.
      replace (S (maxpk - 1)) with maxpk by lia. intros C. apply ratio_above_spec in C. congruence.
    + apply ratio_above_spec in Er. destruct (r_ok (F maxpk)) eqn:Eo.
      * destruct (IH (S maxpk) maxpk (F maxpk) (r_fun (F (maxpk - 1)%nat))) as (t & E & Ht & Hs & Hc & Hend); [lia|lia| | |].
        { replace (S maxpk - 1)%nat with maxpk by lia. reflexivity. }
        { unfold earlier. destruct (Nat.eqb_spec (S maxpk) 3); [lia|]. replace (S maxpk - 2)%nat with (maxpk - 1)%nat by lia. reflexivity. }
        exists t. split; [exact E|]. split; [lia|]. split; [|split].
        { intros k Hk. destruct (Nat.eq_dec k maxpk) as [->|]; [assumption|]. apply Hs. lia. }
        { intros k Hk. destruct (Nat.eq_dec k maxpk) as [->|]; [assumption|]. apply Hc. lia. }
        { destruct Hend as [->|[(A & B)|C]]; [left; lia|right; left; split; [lia|assumption]|right; right; assumption]. }
      * exists maxpk. split; [reflexivity|]. split; [lia|]. split; [|split; [intros; lia|]].
        { intros k Hk. assert (k = maxpk) as -> by lia. assumption. }
        { right. left. split; [lia|assumption]. }
Qed.

Lemma C62_refit_aux : forall simplex signif cs (F : nat -> found),
  (forall k, simplex (map c_width (firstn k cs) ++ map c_mean (firstn k cs) ++ map c_amp (firstn k cs)) = Some (F k) /\
     length (r_x (F k)) = (3 * length (firstn k cs))%nat) ->
  exists total, refit simplex signif cs = Some (total, F total) /\
    (Nat.min 2 (length cs) <= total <= length cs)%nat /\
    (forall k, (3 <= k <= total)%nat -> significant signif (fun k => r_fun (F k)) k) /\
    (forall k, (3 <= k < total)%nat -> r_ok (F k) = true) /\
    (total = length cs \/ ((3 <= total)%nat /\ r_ok (F total) = false) \/ ~ significant signif (fun k => r_fun (F k)) (S total)).
Proof.
  intros simplex signif cs F HF. unfold refit.
  assert (HF' : forall k, simplex (inputs k cs) = Some (F k)) by (intros k; apply HF).
  rewrite HF'. destruct (le_lt_dec 2 (length cs)) as [L|L].
  - rewrite (Nat.min_l 2) by assumption.
    destruct (refit_loop_spec simplex signif cs F HF' (length cs - 2) 3 2 (F 2%nat) (r_fun (F 2%nat) * 2)) as (t & E & Ht & Hs & Hc & Hend);
      [lia|reflexivity|reflexivity|unfold earlier; cbn; ring|].
    rewrite E. assert (Lx : length (r_x (F t)) = (t * 3)%nat).
    { destruct (HF t) as (_ & Hl). rewrite Hl, firstn_length. lia. }
    rewrite Lx, Nat.eqb_refl. exists t. split; [reflexivity|]. split; [lia|]. split; [exact Hs|]. split; [exact Hc|].
    destruct Hend as [->|Hend]; [left; lia|right; exact Hend].
  - replace (length cs - 2)%nat with 0%nat by lia. cbn [refit_loop]. rewrite (Nat.min_r 2) by lia.
    assert (E2 : F 2%nat = F (length cs)).
    { pose proof (HF' 2%nat) as A. pose proof (HF' (length cs)) as B. unfold inputs in A, B.
      rewrite firstn_all2 in A by lia. rewrite firstn_all2 in B by lia. rewrite A in B. injection B as B. exact B. }
    assert (Lx : length (r_x (F 2%nat)) = (length cs * 3)%nat).
    { destruct (HF 2%nat) as (_ & Hl). rewrite Hl, firstn_length. lia. }
    rewrite Lx, Nat.eqb_refl. exists (length cs). rewrite E2. split; [reflexivity|]. split; [lia|].
    split; [intros; lia|]. split; [intros; lia|]. left. reflexivity.
Qed.

Lemma significant_le : forall signif f k, 0 <= earlier f k -> significant signif f k -> f k <= signif * earlier f k.
Proof.
  intros signif f k H0 (H1 & H2). destruct (Req_EM_T (earlier f k) 0) as [E|E]; [rewrite E, Rmult_0_r; auto|].
  specialize (H1 E). apply (Rmult_le_compat_r (earlier f k)) in H1; [|assumption].
  replace (f k / earlier f k * earlier f k) with (f k) in H1 by (field; assumption). assumption.
Qed.

(** The quality of the final fit, in terms of the first one. *)
Lemma C62_quality_aux : forall signif f total, 0 <= signif -> (forall k, 0 <= f k) ->
  (forall k, (3 <= k <= total)%nat -> significant signif f k) ->
  forall j, ((2 + 2 * j <= total)%nat -> f (2 + 2 * j)%nat <= signif ^ j * f 2%nat) /\
            ((3 + 2 * j <= total)%nat -> f (3 + 2 * j)%nat <= 2 * signif ^ (S j) * f 2%nat).
Proof.
  intros signif f total Hs Hf Hsig. induction j as [|j (IH1 & IH2)].
  - split; [intros _; replace (2 + 2 * 0)%nat with 2%nat by lia; cbn [pow]; lra|]. intros Hl. replace (3 + 2 * 0)%nat with 3%nat in * by lia.
    pose proof (significant_le signif f 3) as G. unfold earlier in G. cbn [Nat.eqb] in G.
    specialize (G ltac:(pose proof (Hf 2%nat); lra) (Hsig 3%nat ltac:(lia))). cbn [pow]. lra.
  - split; intros Hl.
    + pose proof (significant_le signif f (2 + 2 * S j)) as G. unfold earlier in G.
      destruct (Nat.eqb_spec (2 + 2 * S j) 3); [lia|]. replace (2 + 2 * S j - 2)%nat with (2 + 2 * j)%nat in G by lia.
      specialize (G (Hf _) (Hsig (2 + 2 * S j)%nat ltac:(lia))). specialize (IH1 ltac:(lia)). cbn [pow]. 
      apply Rle_trans with (signif * (signif ^ j * f 2%nat)); [|lra]. apply Rle_trans with (1 := G). apply Rmult_le_compat_l; assumption.
    + pose proof (significant_le signif f (3 + 2 * S j)) as G. unfold earlier in G.
      destruct (Nat.eqb_spec (3 + 2 * S j) 3); [lia|]. replace (3 + 2 * S j - 2)%nat with (3 + 2 * j)%nat in G by lia.
      specialize (G (Hf _) (Hsig (3 + 2 * S j)%nat ltac:(lia))). specialize (IH2 ltac:(lia)). cbn [pow] in *.
      apply Rle_trans with (signif * (2 * (signif * signif ^ j) * f 2%nat)); [|lra]. apply Rle_trans with (1 := G). apply Rmult_le_compat_l; assumption.
Qed.

(** The third peak is kept although the fit is worse with it. *)
Lemma C62_worse_aux : forall c1 c2 c3 (f2 f3 : R), 0 < f2 -> f2 < f3 -> f3 <= 1.9 * f2 ->
  exists simplex r, (forall x, exists r, simplex x = Some r /\ length (r_x r) = length x) /\
    (exists r2, simplex (inputs 2 [c1; c2; c3]) = Some r2 /\ r_fun r2 = f2) /\
    refit simplex 0.95 [c1; c2; c3] = Some (3%nat, r) /\ r_fun r = f3.
Proof.
  intros c1 c2 c3 f2 f3 H2 H3 Hle.
  exists (fun x => Some (mkFound (if Nat.eqb (length x) 9 then f3 else f2) true x)), (mkFound f3 true (inputs 3 [c1; c2; c3])).
  split; [intros x; eexists; split; reflexivity|]. split; [eexists; split; reflexivity|]. split; [|reflexivity].
  unfold refit. cbn [inputs firstn map app length Nat.sub Nat.min refit_loop r_fun Nat.eqb].
  unfold ratio_above. destruct (Req_EM_T (f2 * 2) 0); [lra|].
  rewrite (proj2 (rltb_false 0.95 (f3 / (f2 * 2)))); [reflexivity|]. apply Rle_not_lt.
  apply Rmult_le_reg_r with (f2 * 2); [lra|]. replace (f3 / (f2 * 2) * (f2 * 2)) with f3 by (field; lra). lra.
Qed.

(** ** C63: positions, profiles, column densities *)

Lemma rmod_range : forall x w, 0 < w -> 0 <= rmod x w < w.
Proof.
  intros x w Hw. unfold rmod. pose proof (Zfloor_lb (x / w)) as L. pose proof (Zfloor_ub (x / w)) as U.
  assert (E : x = x / w * w) by (field; lra). set (q := IZR (Zfloor (x / w))) in *. nra.
Qed.

Lemma rmod_id : forall x w, 0 <= x < w -> rmod x w = x.
Proof.
  intros x w Hx. unfold rmod. assert (E : Zfloor (x / w) = 0%Z).
  { apply Zfloor_imp. split.
    - apply Rmult_le_pos; [lra|]. apply Rlt_le, Rinv_0_lt_compat. lra.
    - apply Rmult_lt_reg_r with w; [lra|]. replace (x / w * w) with x by (field; lra). cbn. lra. }
  rewrite E. ring.
Qed.

Lemma rmod_neg : forall x w, - w <= x < 0 -> rmod x w = x + w.
Proof.
  intros x w Hx. unfold rmod. assert (E : Zfloor (x / w) = (-1)%Z).
  { apply Zfloor_imp. assert (x / w * w = x) by (field; lra). cbn [Z.add Z.opp Z.pos_sub]. split; nra. }
  rewrite E. ring.
Qed.

Lemma C63_ranges_aux : forall dvbin n total x c, 0 < dvbin -> (2 <= n)%nat -> In c (finish dvbin n total x) ->
  0 <= c_mean c < (INR n - 1) * dvbin /\ 0 <= c_width c.
Proof.
  intros dvbin n total x c Hd Hn H. unfold finish in H. apply in_map_iff in H. destruct H as (i & <- & _). cbn [c_mean c_width].
  split; [|apply Rabs_pos]. apply rmod_range. apply Rmult_lt_0_compat; [|assumption]. apply le_INR in Hn. simpl in Hn. lra.
Qed.

Lemma voigt_profile_mean : forall dvbin voigt n w m m' a, peak_pixel dvbin n m = peak_pixel dvbin n m' ->
  voigt_profile dvbin voigt n w m a = voigt_profile dvbin voigt n w m' a.
Proof. intros dvbin voigt n w m m' a E. unfold voigt_profile. rewrite E. reflexivity. Qed.

(** The profile of the numbers reported is the one that was minimised. *)
Lemma C63_profile_aux : forall dvbin voigt n total x, 0 < dvbin -> (2 <= n)%nat -> length x = (3 * total)%nat ->
  (forall i, (i < total)%nat -> - ((INR n - 1) * dvbin) <= nth (total + i) x 0 < (INR n - 1) * dvbin) ->
  get_fitted_profile dvbin voigt n (finish dvbin n total x) = profile_multiple dvbin voigt n (split_inputs (length x / 3) x).
Proof.
  intros dvbin voigt n total x Hd Hn Hl Hm. unfold get_fitted_profile, profile_multiple.
  replace (length x / 3)%nat with total by (rewrite Hl, Nat.mul_comm, Nat.div_mul; lia).
  unfold finish, split_inputs. rewrite !map_map. cbn [c_width c_mean c_amp].
  replace (map (fun i => voigt_profile dvbin voigt n (Rabs (nth i x 0)) (rmod (nth (total + i) x 0) ((INR n - 1) * dvbin)) (nth (2 * total + i) x 0)) (seq 0 total))
    with (map (fun i => voigt_profile dvbin voigt n (nth i x 0) (nth (total + i) x 0) (nth (2 * total + i) x 0)) (seq 0 total)); [reflexivity|].
  apply map_ext_in. intros i Hi. apply in_seq in Hi. specialize (Hm i ltac:(lia)).
  set (m := nth (total + i) x 0) in *.
  transitivity (voigt_profile dvbin voigt n (nth i x 0) (rmod m ((INR n - 1) * dvbin)) (nth (2 * total + i) x 0)).
  - apply voigt_profile_mean. unfold peak_pixel. destruct (Rlt_dec m 0) as [L|L].
    + rewrite rmod_neg by lra. assert (Q : m / dvbin < 0).
      { apply Rmult_lt_reg_r with dvbin; [assumption|]. replace (m / dvbin * dvbin) with m by (field; lra). lra. }
      destruct (Rlt_dec (m / dvbin) 0); [|lra].
      replace ((m + (INR n - 1) * dvbin) / dvbin) with (m / dvbin + (INR n - 1)) by (field; lra).
      assert (Q2 : 0 <= m / dvbin + (INR n - 1)).
      { apply Rmult_le_reg_r with dvbin; [assumption|]. rewrite Rmult_0_l, Rmult_plus_distr_r.
        replace (m / dvbin * dvbin) with m by (field; lra). lra. }
      destruct (Rlt_dec (m / dvbin + (INR n - 1)) 0); [lra|reflexivity].
    + rewrite rmod_id by lra. reflexivity.
  - unfold voigt_profile. rewrite Rabs_Rabsolu. reflexivity.
Qed.

(** A peak in the last pixel is reported, and drawn, in the first one. *)
Lemma C63_last_pixel_aux : forall dvbin voigt n w a, 0 < dvbin -> (2 <= n)%nat -> 0 < w -> peaked voigt w -> 0 < a ->
  let mean := (INR n - 1) * dvbin in
  (exists p, profile_multiple dvbin voigt n [mkComp w mean a] = Some p /\ nth (n - 1) p 0 = a /\ nth 0 p 0 < a) /\
  finish dvbin n 1 [w; mean; a] = [mkComp w 0 a] /\
  (exists p, get_fitted_profile dvbin voigt n (finish dvbin n 1 [w; mean; a]) = Some p /\ nth 0 p 0 = a /\ nth (n - 1) p 0 < a).
Proof.
  intros dvbin voigt n w a Hd Hn Hw V Ha mean.
  assert (Hn' : 1 < INR n) by (apply le_INR in Hn; simpl in Hn; lra).
  assert (Em : mean = INR (n - 1) * dvbin) by (unfold mean; rewrite minus_INR by lia; cbn [INR]; ring).
  assert (Ef : finish dvbin n 1 [w; mean; a] = [mkComp w 0 a]).
  { unfold finish. cbn [seq map nth plus mult]. rewrite Rabs_pos_eq by lra. fold mean. f_equal. f_equal.
    unfold rmod. assert (0 < mean) by (unfold mean; apply Rmult_lt_0_compat; lra).
    replace (mean / mean) with (IZR 1) by (field; lra). rewrite Zfloor_IZR. ring. }
  assert (P : forall i, (i < n)%nat -> profile_multiple dvbin voigt n [mkComp w (INR i * dvbin) a] = Some (shape voigt n w a i)).
  { intros i Hi. unfold profile_multiple. cbn [map c_width c_mean c_amp all_of]. rewrite voigt_profile_on by assumption.
    f_equal. unfold sum_arrays. apply map_seq_ext. intros j Hj. unfold rsum. cbn [map fold_right]. rewrite shape_nth by assumption. ring. }
  assert (Q : forall i j, (i < n)%nat -> (j < n)%nat -> i <> j -> nth i (shape voigt n w a i) 0 = a /\ nth j (shape voigt n w a i) 0 < a).
  { intros i j Hi Hj Hne. destruct V as (V0 & V). rewrite !shape_nth by assumption. rewrite (proj2 (arc_zero n i i Hi Hi) eq_refl), V0.
    split; [ring|]. assert (N : arc n (Z.of_nat j) (Z.of_nat i) <> 0%Z) by (intros E; apply (arc_zero n j i Hj Hi) in E; congruence).
    specialize (V _ N). nra. }
  split; [|split; [exact Ef|]].
  - exists (shape voigt n w a (n - 1)). rewrite Em, P by lia. split; [reflexivity|]. apply Q; lia.
  - exists (shape voigt n w a 0). rewrite Ef. unfold get_fitted_profile.
    replace 0 with (INR 0 * dvbin) at 1 by (cbn [INR]; ring). rewrite P by lia. split; [reflexivity|]. apply Q; lia.
Qed.

(** The sign of a height does not matter for the profile but decides the sign of the column density. *)
Lemma C63_sign_aux : forall dvbin voigt n w mean a unit fnorm b,
  voigt_profile dvbin voigt n w mean (- a) = voigt_profile dvbin voigt n w mean a /\
  get_column_density unit fnorm b (- a) = - get_column_density unit fnorm b a.
Proof.
  intros. split; [unfold voigt_profile; rewrite Rabs_Ropp; reflexivity|]. unfold get_column_density, Rdiv. ring.
Qed.

Lemma C63_density_aux : forall unit fnorm b a, 0 < unit -> 0 < b -> 0 < a -> 0 < fnorm b ->
  0 < get_column_density unit fnorm b a /\
  forall a', a < a' -> get_column_density unit fnorm b a < get_column_density unit fnorm b a'.
Proof.
  intros unit fnorm b a Hu Hb Ha Hf. unfold get_column_density.
  assert (0 < b * unit) by (apply Rmult_lt_0_compat; assumption). split.
  - apply Rdiv_lt_0_compat; [|assumption]. apply Rmult_lt_0_compat; assumption.
  - intros a' H'. unfold Rdiv. apply Rmult_lt_compat_r; [apply Rinv_0_lt_compat; assumption|]. apply Rmult_lt_compat_r; assumption.
Qed.

Lemma insert_perm : forall p c l, Permutation (insert_at p c l) ((p, c) :: l).
Proof.
  intros p c l. induction l as [|d l IH]; cbn [insert_at]; [reflexivity|]. destruct (Rle_dec p (fst d)); [reflexivity|].
  rewrite IH. apply perm_swap.
Qed.

Lemma insert_sorted : forall p c l, StronglySorted (fun a b : R * (R * R) => fst a <= fst b) l ->
  StronglySorted (fun a b => fst a <= fst b) (insert_at p c l).
Proof.
  intros p c l H. induction H as [|d l Hl IH Hd]; cbn [insert_at]; [repeat constructor|].
  destruct (Rle_dec p (fst d)) as [L|L].
  - constructor; [constructor; assumption|]. constructor; [exact L|]. eapply Forall_impl; [|exact Hd]. cbn. intros a Ha. lra.
  - constructor; [assumption|]. rewrite insert_perm. constructor; [cbn; lra|assumption].
Qed.

(** The first get_systems after a fit: column densities, positions and widths belong together. *)
Lemma C63_pairs_aux : forall unit fnorm cs,
  let s := mkState (map c_width cs) (map c_mean cs) (map c_amp cs) in
  exists sorted, Permutation cs sorted /\ StronglySorted (fun a b => c_mean a <= c_mean b) sorted /\
    let '(colden, pos, s') := systems_start unit fnorm s in
    colden = map (fun c => get_column_density unit fnorm (Rabs (c_width c)) (c_amp c)) sorted /\
    pos = map c_mean sorted /\ get_b_params s' = map (fun c => Rabs (c_width c)) sorted.
Proof.
  intros unit fnorm cs s. unfold systems_start, sort_components, s. cbn [f_widths f_means f_amps].
  set (N := fun c => get_column_density unit fnorm (Rabs (c_width c)) (c_amp c)).
  assert (E : combine (map c_mean cs) (combine (map (fun p => get_column_density unit fnorm (Rabs (fst p)) (snd p)) (combine (map c_width cs) (map c_amp cs))) (map c_width cs))
            = map (fun c => (c_mean c, (N c, c_width c))) cs).
  { clear. induction cs as [|c cs IH]; [reflexivity|]. cbn [map combine]. f_equal. apply IH. }
  rewrite E. clear E.
  set (enc := fun c => (c_mean c, (N c, c_width c))).
  assert (H : exists sorted, Permutation cs sorted /\ StronglySorted (fun a b => c_mean a <= c_mean b) sorted /\
    fold_right (fun p l => insert_at (fst p) (snd p) l) [] (map enc cs) = map enc sorted).
  { clear s. induction cs as [|c cs (sorted & P & S & E)]; [exists []; split; [constructor|]; split; [constructor|reflexivity]|].
    cbn [map fold_right]. rewrite E. clear E. cbn [fst snd enc].
    assert (I : exists t, Permutation (c :: sorted) t /\ StronglySorted (fun a b => c_mean a <= c_mean b) t /\
      insert_at (c_mean c) (N c, c_width c) (map enc sorted) = map enc t).
    { clear P. induction S as [|d l Sl (t & P & St & E) Hd].
      - exists [c]. split; [reflexivity|]. split; [repeat constructor|reflexivity].
      - cbn [map insert_at]. unfold enc at 1. cbn [fst]. destruct (Rle_dec (c_mean c) (c_mean d)) as [L|L].
        + exists (c :: d :: l). split; [reflexivity|]. split; [|reflexivity].
          constructor; [constructor; assumption|]. constructor; [assumption|]. eapply Forall_impl; [|exact Hd]. cbn. intros a Ha. lra.
        + exists (d :: t). rewrite E. split; [rewrite perm_swap; constructor; exact P|]. split; [|reflexivity].
          constructor; [assumption|]. rewrite <- P. constructor; [lra|assumption]. }
    destruct I as (t & Pt & St & Et). exists t. split; [rewrite P; exact Pt|]. split; assumption. }
  destruct H as (sorted & P & S & ->). exists sorted. split; [assumption|]. split; [assumption|].
  rewrite !map_map. unfold enc. cbn [fst snd]. split; [reflexivity|]. split; [reflexivity|].
  unfold get_b_params. cbn [f_widths]. rewrite map_map. reflexivity.
Qed.

(** A second get_systems pairs the sorted widths with the unsorted heights. *)
Lemma C63_twice_aux : forall unit fnorm, 0 < unit -> (forall b, fnorm b = 1) ->
  let cs := [mkComp 1 5 1; mkComp 2 3 1] in
  let s := mkState (map c_width cs) (map c_mean cs) (map c_amp cs) in
  let '(colden, _, s') := systems_start unit fnorm s in
  let '(again, _, _) := systems_start unit fnorm s' in
  colden <> again.
Proof.
  intros unit fnorm Hu Hf cs s. unfold systems_start, sort_components. subst s cs. cbn [map combine c_width c_mean c_amp f_widths f_means f_amps fold_right fst snd insert_at].
  destruct (Rle_dec 5 3); [lra|]. cbn [map combine fold_right fst snd insert_at f_widths f_means f_amps].
  destruct (Rle_dec 5 3); [lra|]. cbn [map fst snd]. unfold get_column_density. rewrite !Hf. rewrite !Rabs_pos_eq by lra.
  intros E. injection E as E1 E2. lra.
Qed.

(** The whole fit. *)
Lemma C62_do_fit_aux : forall dvbin voigt bounded simplex fuel tol signif sattau tau,
  0 < dvbin -> (2 <= length tau)%nat ->
  (forall x, exists r, simplex x = Some r /\ length (r_x r) = length x) ->
  (search dvbin voigt bounded fuel tol sattau tau = Raises -> do_fit dvbin voigt bounded simplex fuel tol signif sattau tau = Raises) /\
  (forall cs, search dvbin voigt bounded fuel tol sattau tau = Done cs ->
   exists comps, do_fit dvbin voigt bounded simplex fuel tol signif sattau tau = Done comps /\
     (Nat.min 2 (length cs) <= length comps <= length cs)%nat /\
     (forall c, In c comps -> 0 <= c_mean c < (INR (length tau) - 1) * dvbin /\ 0 <= c_width c)).
Proof.
  intros dvbin voigt bounded simplex fuel tol signif sattau tau Hd Hn Hs. split.
  - intros E. unfold do_fit. rewrite E. reflexivity.
  - intros cs E. unfold do_fit. rewrite E.
    set (F := fun k => match simplex (map c_width (firstn k cs) ++ map c_mean (firstn k cs) ++ map c_amp (firstn k cs)) with
                       | Some r => r | None => mkFound 0 true [] end).
    assert (HF : forall k, simplex (map c_width (firstn k cs) ++ map c_mean (firstn k cs) ++ map c_amp (firstn k cs)) = Some (F k) /\
                           length (r_x (F k)) = (3 * length (firstn k cs))%nat).
    { intros k. destruct (Hs (map c_width (firstn k cs) ++ map c_mean (firstn k cs) ++ map c_amp (firstn k cs))) as (r & Er & Lr).
      unfold F. rewrite Er. split; [reflexivity|]. rewrite Lr, !app_length, !map_length. lia. }
    destruct (C62_refit_aux simplex signif cs F HF) as (total & Er & Ht & _). rewrite Er.
    eexists. split; [reflexivity|]. split.
    + unfold finish. rewrite map_length, seq_length. exact Ht.
    + intros c Hc. exact (C63_ranges_aux dvbin (length tau) total _ c Hd Hn Hc).
Qed.

Lemma C63_recovered_aux : forall sigma fnorm b N, 0 < sigma -> 0 < b -> fnorm b <> 0 ->
  let peak := sigma / sqrt PI * (299792.458 / b) * N * fnorm b in
  get_column_density (density_unit sigma) fnorm b peak = N * (299792.458 / 299000).
Proof.
  intros sigma fnorm b N Hs Hb Hf peak. unfold get_column_density, density_unit, fit_light, peak.
  assert (sqrt PI <> 0) by (apply Rgt_not_eq, sqrt_lt_R0, PI_RGT_0). field. repeat split; lra.
Qed.
