(** Convergence, failures and examples of the spline fit. *)
From Coq Require Import ZArith List Reals Bool Lra Lia Permutation Sorted Psatz.
From Verif Require Import SplineModel SplineSpec SplineProofs SplineProofs2 SplineProofs3.
Import ListNotations.
Local Open Scope R_scope.

(** ** The statistic *)
Lemma pixels_len : forall n a b, length (pixels n a b) = Z.to_nat (Z.min b (n - 1) - a + 1).
Proof. intros. unfold pixels. rewrite map_length, seq_length. reflexivity. Qed.

Lemma sum_pixels : forall n a b f, rsum (map f (pixels n a b)) = sum_over a (Z.min b (n - 1)) f.
Proof. intros. unfold rsum, sum_over, pixels. rewrite map_map. reflexivity. Qed.

Lemma mean_pixels : forall n a b f, (a <= Z.min b (n - 1))%Z -> mean (map f (pixels n a b)) = average a (Z.min b (n - 1)) f.
Proof.
  intros n a b f H. unfold mean, average. rewrite sum_pixels, map_length, pixels_len. f_equal.
  rewrite INR_IZR_INZ. f_equal. lia.
Qed.

Lemma std_pixels : forall n a b f, (a <= Z.min b (n - 1))%Z -> std (map f (pixels n a b)) = sqrt (variance a (Z.min b (n - 1)) f).
Proof.
  intros n a b f H. unfold std, variance. f_equal. rewrite map_map. rewrite (mean_pixels n a b f H).
  apply (mean_pixels n a b (fun i => (f i - average a (Z.min b (n - 1)) f) ^ 2) H).
Qed.

Lemma sum_over_nonneg : forall a b f, (forall i, 0 <= f i) -> 0 <= sum_over a b f.
Proof.
  intros a b f H. unfold sum_over. induction (seq 0 (Z.to_nat (b - a + 1))) as [|i l IH]; cbn [map fold_right]; [lra|].
  specialize (H (a + Z.of_nat i)%Z). lra.
Qed.

Lemma variance_nonneg : forall a b f, (a <= b)%Z -> 0 <= variance a b f.
Proof.
  intros a b f H. unfold variance, average at 1. apply Rmult_le_pos.
  - apply sum_over_nonneg. intros i. apply pow2_ge_0.
  - apply Rlt_le, Rinv_0_lt_compat, IZR_lt. lia.
Qed.

Lemma chi_residual : forall n a b flux g, (a <= Z.min b (n - 1))%Z -> variance a (Z.min b (n - 1)) flux <> 0 ->
  chi_squared flux g (pixels n a b) = residual a (Z.min b (n - 1)) flux g.
Proof.
  intros n a b flux g H V. unfold chi_squared, residual. rewrite (std_pixels n a b flux H).
  set (v := variance a (Z.min b (n - 1)) flux) in *. assert (Vp : 0 < v).
  { assert (0 <= v) by (apply variance_nonneg; exact H). lra. }
  rewrite (sum_pixels n a b (fun i => ((flux i - g i) / sqrt v) ^ 2)). unfold sum_over.
  induction (seq 0 _) as [|i l IH]; cbn [map fold_right]; [unfold Rdiv; ring|]. rewrite IH.
  replace (((flux (a + Z.of_nat i)%Z - g (a + Z.of_nat i)%Z) / sqrt v) ^ 2) with ((flux (a + Z.of_nat i)%Z - g (a + Z.of_nat i)%Z) ^ 2 / v).
  - field. lra.
  - rewrite <- (sqrt_sqrt v) at 1 by lra. field. assert (0 < sqrt v) by (apply sqrt_lt_R0; exact Vp). lra.
Qed.

Lemma improves_spec : forall (spline : Type) (at_pixel : spline -> Z -> R) n chi_min flux cur next a b, (a <= Z.min b (n - 1))%Z ->
  (improves at_pixel n chi_min flux cur next a b = true <->
   variance a (Z.min b (n - 1)) flux <> 0 /\
   chi_min < residual a (Z.min b (n - 1)) flux (at_pixel cur) - residual a (Z.min b (n - 1)) flux (at_pixel next)).
Proof.
  intros spline at_pixel n chi_min flux cur next a b H. unfold improves. cbv zeta. rewrite (std_pixels n a b flux H).
  assert (Vp := variance_nonneg a (Z.min b (n - 1)) flux H).
  destruct (Req_EM_T (sqrt (variance a (Z.min b (n - 1)) flux)) 0) as [E|E].
  - split; [discriminate|]. intros [V _]. exfalso. apply V. apply sqrt_eq_0; assumption.
  - assert (V : variance a (Z.min b (n - 1)) flux <> 0) by (intros V; apply E; rewrite V; apply sqrt_0).
    rewrite !chi_residual by assumption. destruct (Rlt_dec _ _) as [L|L]; [tauto|]. split; [discriminate|]. intros [_ L']. contradiction.
Qed.

(** ** The points tried next *)
Lemma next_halved : forall n l, (2 <= n)%Z -> breaks n l -> knots_ok n (next_inds n l) = true -> halved n l (next_inds n l).
Proof.
  intros n l Hn B K. apply knots_breaks in K; [|exact Hn]. destruct K as [K1 K2]. split; [exact K1|].
  assert (P : Permutation (0%Z :: next_inds n l ++ [n]) (all_inds n l ++ map (fun p => (fst p + snd p) / 2)%Z (pairs (all_inds n l)))).
  { assert (C := rising_climbing _ (all_rising n l Hn B)).
    rewrite next_weave by exact C. eapply perm_trans; [|apply weave_perm].
    assert (Wt : forall l0 z, exists w, weave (l0 ++ [z]) = w ++ [z]).
    { induction l0 as [|x l0 IH]; intros z; [exists []; reflexivity|]. destruct l0 as [|y l0].
      - exists [x; ((x + z) / 2)%Z]. reflexivity.
      - destruct (IH z) as (w & E). cbn [app] in *. exists (x :: ((x + y) / 2)%Z :: w).
        change (weave (x :: y :: l0 ++ [z])) with (x :: ((x + y) / 2)%Z :: weave (y :: l0 ++ [z])). rewrite E. reflexivity. }
    destruct (Wt (0%Z :: l) n) as (w & E). change ((0%Z :: l) ++ [n]) with (all_inds n l) in E.
    destruct w as [|w0 ws]; cbn [app] in E; [exfalso; unfold all_inds in E; destruct l; discriminate E|].
    assert (w0 = 0%Z) by (unfold all_inds in E; destruct l; injection E; intros; congruence). subst w0.
    rewrite E. cbn [tl]. rewrite removelast_last. apply Permutation_refl. }
  intros x. rewrite Forall_forall in K2. split.
  - intros Hx. assert (I : In x (all_inds n l ++ map (fun p => (fst p + snd p) / 2)%Z (pairs (all_inds n l)))).
    { eapply Permutation_in; [exact P|]. right. apply in_or_app. left. exact Hx. }
    specialize (K2 x Hx). apply in_app_or in I. destruct I as [I|I].
    + left. unfold all_inds in I. destruct I as [I|I]; [lia|]. apply in_app_or in I. destruct I as [I|[I|[]]]; [exact I|lia].
    + right. apply in_map_iff in I. destruct I as ((a & b) & <- & I). exists a, b. split; [apply pairs_neighbours; exact I|reflexivity].
  - intros Hx.
    assert (I : In x (0%Z :: next_inds n l ++ [n])).
    { eapply Permutation_in; [apply Permutation_sym; exact P|]. apply in_or_app. destruct Hx as [Hx|(a & b & N & ->)].
      - left. right. apply in_or_app. left. exact Hx.
      - right. apply in_map_iff. exists (a, b). split; [reflexivity|]. apply pairs_neighbours. exact N. }
    destruct I as [I|I].
    + (* 0 is not an interior point, and a middle of a rising segment that is 0 would be the first *)
      exfalso. subst x. assert (C := all_rising n l Hn B). destruct Hx as [Hx|(a & b & N & E)].
      * destruct B as [_ B2]. rewrite Forall_forall in B2. specialize (B2 0%Z Hx). lia.
      * (* then 0 occurs twice in the permutation *)
        assert (Cnt : count_occ Z.eq_dec (0%Z :: next_inds n l ++ [n]) 0%Z = count_occ Z.eq_dec (all_inds n l ++ map (fun p => (fst p + snd p) / 2)%Z (pairs (all_inds n l))) 0%Z).
        { apply Permutation_count_occ. exact P. }
        cbn [count_occ] in Cnt. destruct (Z.eq_dec 0 0) as [_|]; [|contradiction].
        assert (Z0 : count_occ Z.eq_dec (next_inds n l ++ [n]) 0%Z = 0%nat).
        { apply count_occ_not_In. intros I. apply in_app_or in I. destruct I as [I|[I|[]]]; [specialize (K2 0%Z I); lia|lia]. }
        rewrite Z0, count_occ_app in Cnt.
        assert (A1 : (1 <= count_occ Z.eq_dec (all_inds n l) 0%Z)%nat) by (apply count_occ_In; left; reflexivity).
        assert (A2 : (1 <= count_occ Z.eq_dec (map (fun p => (fst p + snd p) / 2)%Z (pairs (all_inds n l))) 0%Z)%nat).
        { apply count_occ_In. apply in_map_iff. exists (a, b). split; [symmetry; exact E|]. apply pairs_neighbours. exact N. }
        lia.
    + apply in_app_or in I. destruct I as [I|[I|[]]]; [exact I|]. exfalso. subst x.
      destruct Hx as [Hx|(a & b & N & E)].
      * destruct B as [_ B2]. rewrite Forall_forall in B2. specialize (B2 n Hx). lia.
      * assert (R := all_rising n l Hn B). rewrite rising_pairs in R. rewrite Forall_forall in R.
        assert (I : In (a, b) (pairs (all_inds n l))) by (apply pairs_neighbours; exact N).
        specialize (R _ I). cbn [fst snd] in R. assert (Hb := pairs_bounded n Hn l a b B I).
        assert (D := Z.div_mod (a + b) 2 ltac:(lia)). assert (M := Z.mod_pos_bound (a + b) 2 ltac:(lia)). lia.
Qed.

Lemma concat_nil : forall A (ls : list (list A)) l, concat ls = [] -> In l ls -> l = [].
Proof.
  intros A. induction ls as [|x ls IH]; intros l H I; [destruct I|]. cbn [concat] in H. apply app_eq_nil in H. destruct H as [H1 H2].
  destruct I as [<-|I]; [exact H1|apply IH; assumption].
Qed.

Lemma in_combine_seq : forall A (ps : list A) i j p, nth_error ps j = Some p -> In ((i + j)%nat, p) (combine (seq i (length ps)) ps).
Proof.
  intros A. induction ps as [|x ps IH]; intros i j p H; [destruct j; discriminate|]. cbn [length seq combine].
  destruct j as [|j]; cbn [nth_error] in H.
  - injection H as ->. rewrite Nat.add_0_r. left. reflexivity.
  - right. replace (i + S j)%nat with (S i + j)%nat by lia. apply IH. exact H.
Qed.

Lemma C69_result_aux : forall (spline : Type) (lsq : list Z -> option spline) at_pixel fuel vmax chi_min seg_min ini n flux br s vals,
  0 < vmax -> spline_fit lsq at_pixel fuel vmax chi_min seg_min ini n flux = Done (br, s, vals) ->
  exists step k, step = vmax / IZR (n - 1) /\ (2 <= n)%Z /\ step < seg_min /\ nearest (ini / step) k /\ (0 < k < n)%Z /\
    breaks n br /\ lsq br = Some s /\
    length vals = Z.to_nat n /\ (forall i, (0 <= i < n)%Z -> nth (Z.to_nat i) vals 0 = at_pixel s i) /\
    (forall a b, neighbours (0%Z :: br) a b -> Rmin seg_min (IZR k * step) <= IZR (b - a) * step) /\
    Rmin seg_min (IZR k * step) - step <= IZR (n - 1 - last (0%Z :: br) 0%Z) * step /\
    (forall i, (1 <= i)%Z -> (k * i + k <= n - 1)%Z -> In (k * i)%Z br) /\
    exists next s', halved n br next /\ lsq next = Some s' /\
      forall a b, neighbours (0%Z :: br ++ [n]) a b ->
        let e := Z.min b (n - 1) in let m := ((a + b) / 2)%Z in
        variance a e flux = 0 \/ residual a e flux (at_pixel s) - residual a e flux (at_pixel s') <= chi_min \/
        IZR (e - m) * step < seg_min \/ IZR (m - a) * step < seg_min.
Proof.
  intros spline lsq at_pixel fuel vmax chi_min seg_min ini n flux br s vals Hv H. unfold spline_fit in H.
  destruct (Z.ltb_spec n 2) as [|Hn]; [discriminate|]. cbv zeta in H.
  destruct (Rle_dec seg_min (step_of vmax n)) as [|Hs]; [discriminate|]. apply Rnot_le_lt in Hs.
  assert (Hp := step_pos vmax n Hv Hn). set (step := step_of vmax n) in *.
  destruct (initial step seg_min n (np_round (ini / step))) as [l| | | | | | |] eqn:E; try discriminate.
  destruct (refine lsq at_pixel fuel step seg_min chi_min n flux l) as [[br' s']| | | | | | |] eqn:R; try discriminate.
  injection H as <- <- <-.
  set (k := np_round (ini / step)) in *.
  destruct (initial_spec _ _ _ _ _ Hn Hp E) as (Hk & (m & El & Hm) & _).
  destruct (refine_result spline lsq at_pixel step seg_min chi_min n flux Hn Hp Hs (Rmin seg_min (IZR k * step)) fuel l br' s') as (B & Sz & L & Inc & next & Kn & Ln & Nb).
  { apply Rmin_l. } { intros _. apply initial_sized; assumption. } { exact R. }
  exists step, k. split; [reflexivity|]. split; [exact Hn|]. split; [exact Hs|]. split; [apply round_nearest|]. split; [exact Hk|].
  split; [exact B|]. split; [exact L|].
  split. { rewrite map_length, pixels_len. lia. }
  split.
  { intros i Hi. assert (Q : at_pixel s' i = nth (Z.to_nat i) (map (at_pixel s') (pixels n 0 (n - 1))) (at_pixel s' 0%Z)).
    { rewrite map_nth. f_equal. unfold pixels. rewrite nth_indep with (d' := (0 + Z.of_nat 0)%Z) by (rewrite map_length, seq_length; lia).
      rewrite (map_nth (fun i => (0 + Z.of_nat i)%Z)), seq_nth by lia. lia. }
    rewrite Q. apply nth_indep. rewrite map_length, pixels_len. lia. }
  split.
  { intros a b (l1 & l2 & Eq). assert (I : In (a, b) (pairs (all_inds n br'))).
    { apply pairs_neighbours. exists l1, (l2 ++ [n]). unfold all_inds. change (0%Z :: br' ++ [n]) with ((0%Z :: br') ++ [n]). rewrite Eq.
      rewrite <- app_assoc. reflexivity. }
    specialize (Sz a b I). assert (Hb : (b < n)%Z).
    { assert (Ib : In b br').
      { assert (Ib : In b (0%Z :: br')) by (rewrite Eq; apply in_or_app; right; right; left; reflexivity).
        destruct Ib as [Ib|Ib]; [|exact Ib]. exfalso. subst b.
        assert (Rb := all_rising n br' Hn B). rewrite rising_pairs, Forall_forall in Rb. specialize (Rb _ I). cbn [fst snd] in Rb.
        assert (Ha := pairs_bounded n Hn br' a 0%Z B I). lia. }
      destruct B as [_ B2]. rewrite Forall_forall in B2. specialize (B2 b Ib). lia. }
    destruct (Z.ltb_spec b n); [exact Sz|lia]. }
  split.
  { assert (I : In (last (0%Z :: br') 0%Z, n) (pairs (all_inds n br'))).
    { apply pairs_neighbours. exists (removelast (0%Z :: br')), []. unfold all_inds. change (0%Z :: br' ++ [n]) with ((0%Z :: br') ++ [n]).
      rewrite (app_removelast_last 0%Z (l := 0%Z :: br')) at 1 by discriminate. rewrite <- app_assoc. reflexivity. }
    specialize (Sz _ _ I). rewrite Z.ltb_irrefl in Sz. exact Sz. }
  split.
  { intros i Hi1 Hi2. apply Inc. rewrite El. unfold multiples. apply in_map_iff. exists (Z.to_nat (i - 1)). split; [rewrite Z2Nat.id by lia; ring|].
    apply in_seq. split; [lia|]. cbn [plus].
    (* only the last multiple may have been dropped *)
    assert (Hm2 : (n - 1 < k * (Z.of_nat m + 2))%Z).
    { clear - E El Hk Hn Hp. unfold initial in E. destruct (Z.eqb_spec k 0); [discriminate|]. destruct (Z.ltb_spec k 0); [discriminate|].
      rewrite arange_multiples in E. assert (Dv := Z.mul_succ_div_gt (n - 1) k ltac:(lia)).
      assert (Q : (0 <= (n - 1) / k)%Z) by (apply Z.div_pos; lia).
      set (m0 := Z.to_nat ((n - 1) / k)) in *. assert (Em : ((n - 1) / k)%Z = Z.of_nat m0) by (unfold m0; lia). rewrite Em in Dv.
      assert (Ml : forall m, length (multiples k k m) = m) by (intros; unfold multiples; rewrite map_length, seq_length; reflexivity).
      destruct (multiples k k m0) as [|x l0] eqn:Ex; [discriminate|]. assert (L0 := Ml m0). rewrite Ex in L0.
      assert (Lm := Ml m). rewrite <- El in Lm.
      destruct (Rlt_dec _ _); injection E as El'.
      - assert (Lr : length (removelast (x :: l0)) = length l0) by (rewrite removelast_firstn_len, firstn_length; cbn [length]; lia).
        apply (f_equal (@length Z)) in El'. change (length (removelast (x :: l0)) = length l) in El'. cbn [length] in L0. nia.
      - rewrite El' in L0. nia. }
    nia. }
  exists (next_inds n br'), next. split; [apply next_halved; assumption|]. split; [exact Ln|].
  intros a b N. cbv zeta. apply pairs_neighbours in N. change (0%Z :: br' ++ [n]) with (all_inds n br') in N.
  assert (Hb := pairs_bounded n Hn br' a b B N). assert (Rb := all_rising n br' Hn B). rewrite rising_pairs, Forall_forall in Rb.
  assert (Lt := Rb _ N). cbn [fst snd] in Lt.
  assert (An : (a < n - 1)%Z).
  { assert (Ia : In a (0%Z :: br')).
    { apply pairs_neighbours in N. destruct N as (l1 & l2 & Eq). unfold all_inds in Eq.
      assert (Eq' : (0%Z :: br') ++ [n] = (l1 ++ [a]) ++ b :: l2) by (rewrite <- app_assoc; exact Eq).
      assert (Sp : exists l3, b :: l2 = l3 ++ [n] /\ 0%Z :: br' = (l1 ++ [a]) ++ l3).
      { destruct (exists_last (l := b :: l2) ltac:(discriminate)) as (l3 & z & Ez). rewrite Ez in Eq'. rewrite app_assoc in Eq'.
        apply app_inj_tail in Eq'. destruct Eq' as [E1 E2]. exists l3. subst z. split; [exact Ez|exact E1]. }
      destruct Sp as (l3 & _ & E1). rewrite E1. apply in_or_app. left. apply in_or_app. right. left. reflexivity. }
    destruct Ia as [<-|Ia]; [lia|]. destruct B as [_ B2]. rewrite Forall_forall in B2. specialize (B2 a Ia). lia. }
  apply In_nth_error in N. destruct N as (j & Hj).
  assert (Bp : bp spline at_pixel step seg_min chi_min n flux s' next br' j a b = []).
  { eapply concat_nil; [exact Nb|]. apply in_map_iff. exists (j, (a, b)). split; [reflexivity|].
    apply (in_combine_seq _ (pairs (all_inds n br')) 0%nat j (a, b) Hj). }
  assert (C := rising_climbing _ (all_rising n br' Hn B)).
  unfold bp, breakpoint in Bp. rewrite (next_nth n br' j a b C Hj) in Bp. cbv zeta in Bp. rewrite !vel_diff in Bp.
  assert (Im := improves_spec spline at_pixel n chi_min flux s' next a b ltac:(lia)).
  destruct (improves at_pixel n chi_min flux s' next a b).
  - destruct (Rle_dec seg_min (IZR (Z.min b (n - 1) - (a + b) / 2) * step)) as [|N1]; [|right; right; left; lra].
    destruct (Rle_dec seg_min (IZR ((a + b) / 2 - a) * step)) as [|N2]; [discriminate|right; right; right; lra].
  - destruct (Req_EM_T (variance a (Z.min b (n - 1)) flux) 0) as [V|V]; [left; exact V|]. right. left.
    destruct (Rle_dec (residual a (Z.min b (n - 1)) flux (at_pixel s') - residual a (Z.min b (n - 1)) flux (at_pixel next)) chi_min) as [|N1]; [assumption|].
    exfalso. assert (X : false = true) by (apply Im; split; [exact V|lra]). discriminate.
Qed.
