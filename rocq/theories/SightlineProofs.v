(** Proofs about sightline helpers. *)
From Coq Require Import ZArith List Bool Reals Lia Lra Permutation Arith FinFun.
From Flocq Require Import Core.Raux.
From Verif Require Import SightlineModel SightlineSpec.
Import ListNotations.

(** ** The grid *)

Lemma NoDup_app_intro : forall A (l1 l2 : list A), NoDup l1 -> NoDup l2 ->
  (forall x, In x l1 -> ~ In x l2) -> NoDup (l1 ++ l2).
Proof.
  intros A l1 l2 H1 H2 H. induction l1 as [|x l1 IH]; simpl; auto.
  inversion H1; subst. constructor.
  - rewrite in_app_iff. intros [|]; [contradiction|]. apply (H x); simpl; auto.
  - apply IH; auto. intros y Hy. apply H. right; auto.
Qed.

Lemma grid_in : forall f n t, In t (grid_ids f n) <-> exists i j, i < n /\ j < n /\ t = f i j.
Proof.
  intros f n t. unfold grid_ids. rewrite in_flat_map. split.
  - intros [i [Hi H]]. apply in_map_iff in H. destruct H as [j [<- Hj]].
    apply in_seq in Hi. apply in_seq in Hj. exists i, j. repeat split; lia.
  - intros [i [j [Hi [Hj ->]]]]. exists i. split; [apply in_seq; lia|]. apply in_map_iff. exists j.
    split; auto. apply in_seq. lia.
Qed.

Lemma grid_length : forall f n, length (grid_ids f n) = n * n.
Proof.
  intros f n. unfold grid_ids.
  assert (H : forall k l, length (flat_map (fun nn => map (fun mm => f nn mm) (seq 0 k)) l) = length l * k).
  { intros k l. induction l as [|x l IH]; simpl; auto. rewrite app_length, map_length, seq_length, IH. auto. }
  rewrite H, seq_length. auto.
Qed.

Lemma grid_nodup : forall f n, (forall i j i' j', f i j = f i' j' -> i = i' /\ j = j') ->
  NoDup (grid_ids f n).
Proof.
  intros f n Hf. unfold grid_ids. generalize (seq_NoDup n 0). generalize (seq 0 n) at 1 3 as l.
  induction l as [|x l IH]; intros Hl; simpl; [constructor|]. inversion Hl; subst.
  apply NoDup_app_intro; auto.
  - apply Injective_map_NoDup; [|apply seq_NoDup]. intros a b E. apply Hf in E. tauto.
  - intros t Ht Ht'. apply in_map_iff in Ht. destruct Ht as [m [<- _]].
    apply in_flat_map in Ht'. destruct Ht' as [y [Hy Ht']]. apply in_map_iff in Ht'.
    destruct Ht' as [m' [E _]]. apply Hf in E. destruct E; subst. contradiction.
Qed.

Lemma combine_repeat : forall A B (a : A) (l : list B), combine (repeat a (length l)) l = map (pair a) l.
Proof. intros A B a l. induction l; simpl; congruence. Qed.

Lemma combine_app : forall A B (l1 l2 : list A) (m1 m2 : list B), length l1 = length m1 ->
  combine (l1 ++ l2) (m1 ++ m2) = combine l1 m1 ++ combine l2 m2.
Proof.
  intros A B l1; induction l1 as [|x l1 IH]; intros l2 [|y m1] m2 H; simpl in *; try discriminate; auto.
  rewrite IH by lia. auto.
Qed.

Lemma scale_inj : forall dx, dx <> 0%R -> Injective (scale_id dx).
Proof.
  intros dx H [[i j] k] [[i' j'] k'] E. simpl in E. inversion E as [[E1 E2 E3]].
  apply Rmult_eq_reg_l, INR_eq in E1; auto. apply Rmult_eq_reg_l, INR_eq in E2; auto.
  apply Rmult_eq_reg_l, INR_eq in E3; auto. congruence.
Qed.

Definition grid_pts (box : R) (n : nat) (ax : Z) : list (R * R * R) :=
  map (scale_id (box / INR n)) (grid_ids (if (ax =? 1)%Z then id_1 else if (ax =? 2)%Z then id_2 else id_3) n).

Lemma grid_pts_in : forall box n ax p, 0 < n -> (1 <= ax <= 3)%Z ->
  In p (grid_pts box n ax) <-> grid_sightline box n ax p.
Proof.
  intros box n ax p Hn Hax. unfold grid_pts.
  assert (Hr : (INR n <> 0)%R) by (apply not_0_INR; lia).
  rewrite in_map_iff. assert (H : ax = 1%Z \/ ax = 2%Z \/ ax = 3%Z) by lia.
  unfold grid_sightline. split.
  - intros [t [E Ht]]. apply grid_in in Ht. destruct Ht as [i [j [Hi [Hj ->]]]].
    split; auto. destruct H as [->|[->| ->]]; simpl in E; subst p; simpl.
    all: split; [lra|]; exists i, j; split; auto; split; auto; f_equal; field; auto.
  - intros [_ [H0 [i [j [Hi [Hj Ha]]]]]]. destruct p as [[x y] z].
    destruct H as [->|[->| ->]]; simpl in *; inversion Ha; subst.
    + exists (id_1 i j). split; [|apply grid_in; eauto]. simpl. f_equal; [f_equal|]; field; auto.
    + exists (id_2 i j). split; [|apply grid_in; eauto]. simpl. f_equal; [f_equal|]; field; auto.
    + exists (id_3 i j). split; [|apply grid_in; eauto]. simpl. f_equal; [f_equal|]; field; auto.
Qed.

Lemma grid_pts_len : forall box n ax, length (grid_pts box n ax) = n * n.
Proof. intros. unfold grid_pts. rewrite map_length. apply grid_length. Qed.

Lemma grid_pts_nodup : forall box n ax, (box <> 0)%R -> 0 < n -> NoDup (grid_pts box n ax).
Proof.
  intros box n ax Hb Hn. unfold grid_pts. apply Injective_map_NoDup.
  - apply scale_inj. apply Rmult_integral_contrapositive_currified; auto.
    apply Rinv_neq_0_compat. apply not_0_INR. lia.
  - apply grid_nodup. destruct (ax =? 1)%Z; [|destruct (ax =? 2)%Z];
      intros i j i' j' E; inversion E; auto.
Qed.

Lemma pair_inj : forall A B (a : A), Injective (@pair A B a).
Proof. intros A B a x y E. congruence. Qed.

Lemma grid_result_neg : forall box n axis, (axis < 0)%Z -> 0 < n ->
  get_axes_and_cofm box n axis =
  Some (repeat 1%Z (n * n) ++ repeat 2%Z (n * n) ++ repeat 3%Z (n * n),
        grid_pts box n 1 ++ grid_pts box n 2 ++ grid_pts box n 3).
Proof.
  intros box n axis H Hn. unfold get_axes_and_cofm.
  destruct (Z.eqb_spec axis 1); [lia|]. destruct (Z.eqb_spec axis 2); [lia|].
  destruct (Z.eqb_spec axis 3); [lia|]. destruct (Z.ltb_spec axis 0); [|lia].
  rewrite !map_app. reflexivity.
Qed.

Lemma grid_result_pos : forall box n axis, (1 <= axis <= 3)%Z -> 0 < n ->
  get_axes_and_cofm box n axis = Some (repeat axis (n * n), grid_pts box n axis).
Proof.
  intros box n axis H Hn. unfold get_axes_and_cofm, grid_pts.
  assert (E : axis = 1%Z \/ axis = 2%Z \/ axis = 3%Z) by lia.
  destruct E as [->|[->| ->]]; reflexivity.
Qed.

Lemma grid_nth : forall f n i j, i < n -> j < n -> nth_error (grid_ids f n) (i * n + j) = Some (f i j).
Proof.
  intros f n i j Hi Hj. unfold grid_ids.
  assert (G : forall m a, i < m -> nth_error (flat_map (fun nn => map (fun mm => f nn mm) (seq 0 n)) (seq a m))
     (i * n + j) = Some (f (a + i) j)).
  { revert Hi. clear - Hj. intros _. induction i as [|i IH]; intros m a Hm; destruct m as [|m]; try lia.
    - cbn [seq flat_map]. rewrite nth_error_app1 by (rewrite map_length, seq_length; lia).
      simpl. rewrite nth_error_map.
      assert (E : nth_error (seq 0 n) j = Some j).
      { rewrite nth_error_nth' with (d := 0) by (rewrite seq_length; lia). rewrite seq_nth; auto. }
      rewrite E. simpl. rewrite Nat.add_0_r. auto.
    - cbn [seq flat_map]. rewrite nth_error_app2 by (rewrite map_length, seq_length; lia).
      rewrite map_length, seq_length. replace (S i * n + j - n) with (i * n + j) by lia.
      rewrite IH by lia. f_equal. f_equal. lia. }
  rewrite G by auto. auto.
Qed.

Lemma grid_pts_nth : forall box n ax i j, (1 <= ax <= 3)%Z -> i < n -> j < n ->
  nth_error (grid_pts box n ax) (i * n + j) = Some (grid_point box n ax i j).
Proof.
  intros box n ax i j Hax Hi Hj. unfold grid_pts. rewrite nth_error_map, grid_nth by auto.
  assert (Hn : INR n <> 0%R) by (apply not_0_INR; lia).
  assert (ax = 1 \/ ax = 2 \/ ax = 3)%Z as [->|[->| ->]] by lia; simpl; unfold grid_point; simpl;
    (apply f_equal; apply f_equal2; [apply f_equal2|]; field; auto).
Qed.

Lemma nth_error_repeat' : forall A (x : A) n k, k < n -> nth_error (repeat x n) k = Some x.
Proof. intros A x n. induction n; intros [|k] H; simpl; try lia; auto. apply IHn. lia. Qed.

Lemma C37_order_aux : forall box n axis axes cofm i j, i < n -> j < n ->
  get_axes_and_cofm box n axis = Some (axes, cofm) ->
  ((1 <= axis <= 3)%Z ->
     nth_error axes (i * n + j) = Some axis /\
     nth_error cofm (i * n + j) = Some (grid_point box n axis i j)) /\
  ((axis < 0)%Z -> forall b, b < 3 ->
     nth_error axes (b * (n * n) + (i * n + j)) = Some (Z.of_nat b + 1)%Z /\
     nth_error cofm (b * (n * n) + (i * n + j)) = Some (grid_point box n (Z.of_nat b + 1) i j)).
Proof.
  intros box n axis axes cofm i j Hi Hj E.
  assert (B : i * n + j < n * n) by nia. split.
  - intros Hax. rewrite grid_result_pos in E by lia. injection E as <- <-. split.
    + apply nth_error_repeat'. auto.
    + apply grid_pts_nth; auto.
  - intros Hax b Hb. rewrite grid_result_neg in E by lia. injection E as <- <-.
    assert (b = 0 \/ b = 1 \/ b = 2) as [->|[->| ->]] by lia.
    + rewrite !nth_error_app1 by (rewrite ?repeat_length, ?grid_pts_len; lia).
      split; [apply nth_error_repeat'; auto|]. apply (grid_pts_nth box n 1); auto; lia.
    + rewrite !(nth_error_app2 (repeat 1%Z _)), !(nth_error_app2 (grid_pts box n 1))
        by (rewrite ?repeat_length, ?grid_pts_len; lia).
      rewrite repeat_length, grid_pts_len. replace (1 * (n * n) + (i * n + j) - n * n) with (i * n + j) by lia.
      rewrite !nth_error_app1 by (rewrite ?repeat_length, ?grid_pts_len; lia).
      split; [apply nth_error_repeat'; auto|]. apply (grid_pts_nth box n 2); auto; lia.
    + rewrite !(nth_error_app2 (repeat 1%Z _)), !(nth_error_app2 (grid_pts box n 1))
        by (rewrite ?repeat_length, ?grid_pts_len; lia).
      rewrite !(nth_error_app2 (repeat 2%Z _)), !(nth_error_app2 (grid_pts box n 2))
        by (rewrite ?repeat_length, ?grid_pts_len; lia).
      rewrite !repeat_length, !grid_pts_len.
      replace (2 * (n * n) + (i * n + j) - n * n - n * n) with (i * n + j) by lia.
      split; [apply nth_error_repeat'; auto|]. apply (grid_pts_nth box n 3); auto; lia.
Qed.

Lemma C37_grid_aux : forall box n axis, (0 < box)%R -> 0 < n ->
  (axis < 0 \/ 1 <= axis <= 3)%Z ->
  exists axes cofm, get_axes_and_cofm box n axis = Some (axes, cofm) /\
    length axes = length cofm /\
    length cofm = (if (axis <? 0)%Z then 3 * (n * n) else n * n) /\
    NoDup (combine axes cofm) /\
    forall ax p, In (ax, p) (combine axes cofm) <->
      ((axis < 0)%Z \/ ax = axis) /\ grid_sightline box n ax p.
Proof.
  intros box n axis Hb Hn [Ha|Ha].
  - rewrite grid_result_neg by auto. do 2 eexists. split; [reflexivity|].
    destruct (Z.ltb_spec axis 0); [|lia].
    rewrite !app_length, !repeat_length, !grid_pts_len. split; auto. split; [lia|].
    rewrite !combine_app by (rewrite repeat_length, grid_pts_len; auto).
    assert (E : forall (a : Z) k, combine (repeat a (n * n)) (grid_pts box n k) =
       map (pair a) (grid_pts box n k)).
    { intros a k. rewrite <- (grid_pts_len box n k) at 1. apply combine_repeat. }
    rewrite !E. split.
    + assert (D : forall a b k m x, a <> b -> In x (map (@pair Z _ a) (grid_pts box n k)) ->
        ~ In x (map (@pair Z _ b) (grid_pts box n m))).
      { intros a b k m x Hab H1 H2. apply in_map_iff in H1. apply in_map_iff in H2.
        destruct H1 as [y [<- _]]. destruct H2 as [z [Ez _]]. congruence. }
      apply NoDup_app_intro; [| |].
      * apply Injective_map_NoDup; [apply pair_inj|]. apply grid_pts_nodup; auto. lra.
      * apply NoDup_app_intro.
        -- apply Injective_map_NoDup; [apply pair_inj|]. apply grid_pts_nodup; auto. lra.
        -- apply Injective_map_NoDup; [apply pair_inj|]. apply grid_pts_nodup; auto. lra.
        -- intros x. apply D. lia.
      * intros x Hx. rewrite in_app_iff. intros [H1|H1]; revert H1; eapply D; eauto; lia.
    + intros ax p. rewrite !in_app_iff, !in_map_iff. split.
      * intros [[q [E1 Hq]]|[[q [E1 Hq]]|[q [E1 Hq]]]]; inversion E1; subst;
          (split; [left; auto|]); apply grid_pts_in; auto; lia.
      * intros [_ Hg]. pose proof Hg as [Hax _].
        assert (C : ax = 1%Z \/ ax = 2%Z \/ ax = 3%Z) by lia.
        destruct C as [->|[->| ->]]; apply grid_pts_in in Hg; auto; try lia; eauto 6.
  - rewrite grid_result_pos by auto. do 2 eexists. split; [reflexivity|].
    destruct (Z.ltb_spec axis 0); [lia|].
    rewrite !repeat_length, !grid_pts_len. split; auto. split; auto.
    rewrite <- (grid_pts_len box n axis). rewrite combine_repeat. split.
    + apply Injective_map_NoDup; [apply pair_inj|]. apply grid_pts_nodup; auto. lra.
    + intros ax p. rewrite in_map_iff. split.
      * intros [q [E1 Hq]]. inversion E1; subst. split; auto. apply grid_pts_in; auto.
      * intros [[?| ->] Hg]; [lia|]. exists p. split; auto. apply grid_pts_in; auto.
Qed.

Lemma C37_reject_aux : forall box n axis, ~ (axis < 0 \/ 1 <= axis <= 3)%Z ->
  get_axes_and_cofm box n axis = None.
Proof.
  intros box n axis H. unfold get_axes_and_cofm.
  destruct (Z.eqb_spec axis 1); [lia|]. destruct (Z.eqb_spec axis 2); [lia|].
  destruct (Z.eqb_spec axis 3); [lia|]. destruct (Z.ltb_spec axis 0); [lia|]. auto.
Qed.

Lemma C37_inside_aux : forall box n ax p, (0 < box)%R -> 0 < n -> grid_sightline box n ax p ->
  match p with (x, y, z) => (0 <= x < box /\ 0 <= y < box /\ 0 <= z < box)%R end.
Proof.
  intros box n ax [[x y] z] Hb Hn [Hax [H0 [i [j [Hi [Hj Ha]]]]]].
  assert (B : forall k, k < n -> (0 <= box * INR k / INR n < box)%R).
  { intros k Hk. assert (0 < INR n)%R by (apply lt_0_INR; lia).
    assert (INR k < INR n)%R by (apply lt_INR; lia). pose proof (pos_INR k).
    split.
    - apply Rmult_le_pos; [apply Rmult_le_pos; lra|]. left. apply Rinv_0_lt_compat. auto.
    - apply (Rmult_lt_reg_r (INR n)); auto. unfold Rdiv. rewrite Rmult_assoc, Rinv_l by lra.
      rewrite Rmult_1_r. apply Rmult_lt_compat_l; auto. }
  assert (C : ax = 1%Z \/ ax = 2%Z \/ ax = 3%Z) by lia.
  pose proof (B i Hi). pose proof (B j Hj).
  destruct C as [->|[->| ->]]; simpl in *; inversion Ha; subst; lra.
Qed.

(** ** Projection *)
Local Open Scope Z_scope.

Lemma sum_bound : forall a l, (forall x, In x l -> a <= x) ->
  Z.of_nat (length l) * a <= fold_right Z.add 0 l /\
  (fold_right Z.add 0 l = Z.of_nat (length l) * a -> forall x, In x l -> x = a).
Proof.
  intros a l; induction l as [|y l IH]; intros H; cbn [length fold_right].
  - split; [lia|]. intros _ x [].
  - destruct IH as [I1 I2]; [intros; apply H; right; auto|].
    assert (Hy : a <= y) by (apply H; left; auto). rewrite Nat2Z.inj_succ. split; [lia|].
    intros E x [<-|Hx]; [lia|]. apply I2; auto. lia.
Qed.

Lemma sum_bound_up : forall a l, (forall x, In x l -> x <= a) ->
  fold_right Z.add 0 l <= Z.of_nat (length l) * a /\
  (fold_right Z.add 0 l = Z.of_nat (length l) * a -> forall x, In x l -> x = a).
Proof.
  intros a l; induction l as [|y l IH]; intros H; cbn [length fold_right].
  - split; [lia|]. intros _ x [].
  - destruct IH as [I1 I2]; [intros; apply H; right; auto|].
    assert (Hy : y <= a) by (apply H; left; auto). rewrite Nat2Z.inj_succ. split; [lia|].
    intros E x [<-|Hx]; [lia|]. apply I2; auto. lia.
Qed.

Lemma sum_repeat : forall a n, fold_right Z.add 0 (repeat a n) = Z.of_nat n * a.
Proof. intros a n. induction n; simpl repeat; cbn [fold_right]; lia. Qed.

Lemma last_repeat : forall (a d : Z) n, last (repeat a (S n)) d = a.
Proof. intros a d n. induction n; auto. Qed.

Lemma C42_uniform_aux : forall A (a : Z) n (cofm : list (A * A * A)), 1 <= a <= 3 ->
  exists spos, get_spectra_proj_pos (repeat a (S n)) cofm = ProjPos spos /\
    length spos = length cofm /\
    forall i x y z, nth_error cofm i = Some (x, y, z) ->
      nth_error spos i = Some (if a =? 1 then (y, z) else if a =? 2 then (x, z) else (x, y)).
Proof.
  intros A a n cofm Ha. unfold get_spectra_proj_pos.
  cbn [repeat]. change (a :: repeat a n) with (repeat a (S n)).
  rewrite sum_repeat, repeat_length, Z.eqb_refl, last_repeat, Z.eqb_refl. cbn [negb orb].
  assert (C : a = 1 \/ a = 2 \/ a = 3) by lia.
  destruct C as [->|[->| ->]]; simpl; eexists; (split; [reflexivity|]); rewrite map_length; (split; [auto|]);
    intros i x y z H; rewrite nth_error_map, H; reflexivity.
Qed.

Lemma C42_accept_aux : forall A axis (cofm : list (A * A * A)) spos,
  (forall a, In a axis -> 1 <= a <= 3) -> hd 0 axis <> 2 ->
  get_spectra_proj_pos axis cofm = ProjPos spos -> forall a, In a axis -> a = hd 0 axis.
Proof.
  intros A axis cofm spos Hr H2 H a Ha. unfold get_spectra_proj_pos in H.
  destruct axis as [|a0 axis]; [destruct Ha|].
  destruct (Z.eqb_spec (fold_right Z.add 0 (a0 :: axis)) (Z.of_nat (length (a0 :: axis)) * a0)) as [E|E];
    [|discriminate].
  cbn [hd] in *. assert (C : a0 = 1 \/ a0 = 3) by (specialize (Hr a0 (or_introl eq_refl)); lia).
  destruct C as [->| ->].
  - apply (proj2 (sum_bound 1 (1 :: axis) (fun x Hx => proj1 (Hr x Hx))) E a Ha).
  - apply (proj2 (sum_bound_up 3 (3 :: axis) (fun x Hx => proj2 (Hr x Hx))) E a Ha).
Qed.

(** ** Rolling *)

Lemma fold_max : forall l x, In (fold_left Z.max l x) (x :: l) /\
  forall y, In y (x :: l) -> y <= fold_left Z.max l x.
Proof.
  intros l; induction l as [|z l IH]; intros x; cbn [fold_left].
  - split; [left; auto|]. intros y [<-|[]]. lia.
  - destruct (IH (Z.max x z)) as [I1 I2]. split.
    + destruct I1 as [E|I1]; [|right; right; auto].
      destruct (Z.max_spec x z) as [[_ M]|[_ M]]; rewrite M in *;
        [right; left|left]; auto.
    + intros y [<-|[<-|Hy]].
      * specialize (I2 (Z.max x z) (or_introl eq_refl)). lia.
      * specialize (I2 (Z.max x z) (or_introl eq_refl)). lia.
      * apply I2. right; auto.
Qed.

Lemma first_index_spec : forall v l, In v l -> exists i, first_index v l = Some i /\
  nth_error l i = Some v /\ forall j y, (j < i)%nat -> nth_error l j = Some y -> y <> v.
Proof.
  intros v l; induction l as [|x l IH]; intros H; [destruct H|]. simpl.
  destruct (Z.eqb_spec x v) as [->|Hne].
  - exists 0%nat. split; auto. split; auto. intros; lia.
  - destruct H as [E|H]; [contradiction|]. destruct (IH H) as [i [E [N F]]]. exists (S i).
    rewrite E. split; auto. split; auto. intros [|j] y Hj Hy.
    + simpl in Hy. congruence.
    + apply (F j); auto. lia.
Qed.

Lemma roll_length : forall l s, length (np_roll l s) = length l.
Proof. intros. unfold np_roll. rewrite map_length, seq_length. auto. Qed.

Lemma roll_nth : forall l s i, (i < length l)%nat ->
  nth_error (np_roll l s) i = nth_error l (Z.to_nat ((Z.of_nat i - s) mod Z.of_nat (length l))).
Proof.
  intros l s i Hi. unfold np_roll. rewrite nth_error_map.
  rewrite (nth_error_nth' (seq 0 (length l)) 0%nat) by (rewrite seq_length; auto).
  rewrite seq_nth by auto. cbn [option_map]. rewrite Nat.add_0_l. symmetry. apply nth_error_nth'.
  pose proof (Z.mod_pos_bound (Z.of_nat i - s) (Z.of_nat (length l))). lia.
Qed.

Lemma nth_error_ext : forall A (l l' : list A), length l = length l' ->
  (forall i, (i < length l)%nat -> nth_error l i = nth_error l' i) -> l = l'.
Proof.
  intros A l; induction l as [|x l IH]; intros [|y l'] H1 H2; simpl in *; try discriminate; auto.
  pose proof (H2 0%nat ltac:(lia)) as E. simpl in E. inversion E; subst. f_equal. apply IH; [lia|].
  intros i Hi. apply (H2 (S i)). lia.
Qed.

Lemma roll_roll : forall l s t, np_roll (np_roll l s) t = np_roll l (s + t).
Proof.
  intros l s t. apply nth_error_ext; rewrite !roll_length; auto. intros i Hi.
  rewrite roll_nth by (rewrite roll_length; auto). rewrite roll_length.
  pose proof (Z.mod_pos_bound (Z.of_nat i - t) (Z.of_nat (length l))).
  rewrite roll_nth by lia. rewrite roll_nth by auto. f_equal. f_equal.
  rewrite Z2Nat.id by lia. rewrite Zminus_mod_idemp_l. f_equal. lia.
Qed.

Lemma roll_0 : forall l, np_roll l 0 = l.
Proof.
  intros l. apply nth_error_ext; rewrite roll_length; auto. intros i Hi. rewrite roll_nth by auto.
  rewrite Z.sub_0_r, Z.mod_small by lia. rewrite Nat2Z.id. auto.
Qed.

Lemma roll_perm : forall l s, Permutation (np_roll l s) l.
Proof.
  intros l s. destruct l as [|x0 l0]; [constructor|].
  remember (x0 :: l0) as l. assert (Hn : (0 < length l)%nat) by (subst; simpl; lia). clear Heql.
  unfold np_roll.
  set (n := Z.of_nat (length l)).
  set (f := fun i => Z.to_nat ((Z.of_nat i - s) mod n)).
  assert (P : Permutation (map f (seq 0 (length l))) (seq 0 (length l))).
  { apply NoDup_Permutation_bis.
    - assert (Hin : forall a b, (a < length l)%nat -> (b < length l)%nat -> f a = f b -> a = b).
      { intros a b Ha Hb E. unfold f in E. apply Z2Nat.inj in E;
          [|apply Z.mod_pos_bound; unfold n; lia|apply Z.mod_pos_bound; unfold n; lia].
        assert (D : (Z.of_nat a - Z.of_nat b) mod n = 0).
        { replace (Z.of_nat a - Z.of_nat b) with ((Z.of_nat a - s) - (Z.of_nat b - s)) by lia.
          rewrite Zminus_mod, E, Z.sub_diag. apply Z.mod_0_l. unfold n; lia. }
        apply Z.mod_divide in D; [|unfold n; lia]. destruct D as [q D].
        assert (Hna : Z.of_nat a < n /\ Z.of_nat b < n) by (unfold n; lia).
        assert (q = 0); [|subst q; lia].
        destruct (Z_lt_le_dec q 0); [|destruct (Z_lt_le_dec 0 q); [|lia]]; nia. }
      assert (G : forall k m, (k + m <= length l)%nat -> NoDup (map f (seq k m))).
      { intros k m; revert k; induction m as [|m IH]; intros k Hk; simpl; constructor.
        - intros Hi. apply in_map_iff in Hi. destruct Hi as [j [E Hj]]. apply in_seq in Hj.
          apply Hin in E; lia.
        - apply IH. lia. }
      apply G. lia.
    - rewrite map_length, seq_length. lia.
    - intros y Hy. apply in_map_iff in Hy. destruct Hy as [j [<- Hj]]. apply in_seq. unfold f.
      pose proof (Z.mod_pos_bound (Z.of_nat j - s) n ltac:(unfold n; lia)). unfold n in *. lia. }
  apply (Permutation_map (fun i => nth i l 0)) in P. rewrite map_map in P. unfold f in P.
  assert (Q : map (fun i => nth i l 0) (seq 0 (length l)) = l).
  { apply nth_error_ext; rewrite map_length, seq_length; auto. intros i Hi.
    rewrite nth_error_map, (nth_error_nth' (seq 0 (length l)) 0%nat) by (rewrite seq_length; auto).
    rewrite seq_nth by auto. cbn [option_map]. symmetry. apply nth_error_nth'. auto. }
  rewrite Q in P. exact P.
Qed.

Lemma C30_roll_aux : forall tau, tau <> [] ->
  exists roll out, roll_one_spectra tau = Some (roll, out) /\
    length out = length tau /\
    Permutation out tau /\
    np_roll out (- roll) = tau /\
    (exists m, nth_error out (length tau / 2) = Some m /\ forall x, In x tau -> x <= m) /\
    (forall i x m, nth_error tau i = Some x -> nth_error out (length tau / 2) = Some m ->
       Z.of_nat i < Z.of_nat (length tau / 2) - roll -> x < m).
Proof.
  intros [|x0 t] Hne; [congruence|]. unfold roll_one_spectra. cbn [list_max].
  destruct (fold_max t x0) as [M1 M2]. set (m := fold_left Z.max t x0) in *.
  destruct (first_index_spec m (x0 :: t) M1) as [k [E [N F]]]. rewrite E.
  set (l := x0 :: t) in *. set (h := (length l / 2)%nat).
  assert (Hk : (k < length l)%nat) by (apply nth_error_Some; congruence).
  assert (Hh : (h < length l)%nat) by (apply Nat.div_lt; unfold l; simpl; lia).
  assert (Hm : nth_error (np_roll l (Z.of_nat h - Z.of_nat k)) h = Some m).
  { rewrite roll_nth by auto. replace (Z.of_nat h - (Z.of_nat h - Z.of_nat k)) with (Z.of_nat k) by lia.
    rewrite Z.mod_small by lia. rewrite Nat2Z.id. auto. }
  do 2 eexists. split; [reflexivity|]. split; [apply roll_length|]. split; [apply roll_perm|].
  split; [|split].
  - rewrite roll_roll. rewrite Z.add_opp_diag_r. apply roll_0.
  - exists m. split; auto.
  - intros i x m' Hi Hm' Hlt. rewrite Hm in Hm'. inversion Hm'; subst m'.
    assert (Hik : (i < k)%nat) by lia. pose proof (F i x Hik Hi).
    specialize (M2 x (nth_error_In _ _ Hi)). lia.
Qed.

Lemma roll_rows_spec : forall rows, Forall (fun r => r <> []) rows ->
  exists out, roll_rows rows = Some out /\ length out = length rows /\
    forall i row, nth_error rows i = Some row -> nth_error out i = roll_one_spectra row.
Proof.
  intros rows; induction rows as [|r rows IH]; intros H.
  - exists []. repeat split. intros [|i]; discriminate.
  - inversion H as [|? ? H1 H2]; subst. destruct (IH H2) as [out [E [L N]]].
    destruct (C30_roll_aux r H1) as [roll [o [Er _]]].
    simpl. rewrite Er, E. eexists. split; [reflexivity|]. split; [simpl; lia|].
    intros [|i] row Hi; simpl in *.
    + inversion Hi; subst. rewrite Er. auto.
    + apply N. auto.
Qed.

Lemma rolled_all_aux : forall rows, rows <> [] -> Forall (fun r => r <> []) rows ->
  exists out, get_rolled_spectra rows = Some out /\ length out = length rows /\
    forall i row, nth_error rows i = Some row -> nth_error out i = roll_one_spectra row.
Proof. intros [|r rows] H; [congruence|]. exact (roll_rows_spec (r :: rows)). Qed.

(** ** Renormalisation *)
Local Open Scope R_scope.

Lemma fold_Rmax : forall l x, In (fold_left Rmax l x) (x :: l) /\
  forall y, In y (x :: l) -> y <= fold_left Rmax l x.
Proof.
  intros l; induction l as [|z l IH]; intros x; cbn [fold_left].
  - split; [left; auto|]. intros y [<-|[]]. lra.
  - destruct (IH (Rmax x z)) as [I1 I2]. split.
    + destruct I1 as [E|I1]; [|right; right; auto]. rewrite <- E.
      unfold Rmax. destruct (Rle_dec x z); [right; left|left]; auto.
    + pose proof (Rmax_l x z). pose proof (Rmax_r x z).
      pose proof (I2 (Rmax x z) (or_introl eq_refl)).
      intros y [<-|[<-|Hy]]; try lra. apply I2. right; auto.
Qed.

Lemma slice_window : forall (l : list R) a k, (a + k <= length l)%nat ->
  window a k l (py_slice a (a + k) l).
Proof.
  intros l a k H. unfold window, py_slice. replace (a + k - a)%nat with k by lia. split; [|split; auto].
  - rewrite firstn_length, skipn_length. lia.
  - intros i Hi. assert (E : forall (m : list R) n, (i < n)%nat -> nth_error (firstn n m) i = nth_error m i).
    { clear. revert i. intros i m. revert i. induction m as [|x m IH]; intros i [|n] H; simpl; try lia.
      - destruct i; auto. - destruct i; auto. simpl. apply IH. lia. }
    rewrite E by auto. clear.
    revert l i. induction a as [|a IH]; intros [|x l] i; simpl; auto. destruct i; auto.
Qed.

Lemma one_section_spec : forall k row i, (0 < k)%nat -> Forall (fun x => 0 < x) row ->
  (i * k + (k + 1) <= length row)%nat ->
  exists sec m, window (i * k) (k + 1) row sec /\ is_max sec m /\ 0 < m /\
    one_section k row i = Some (map (fun x => x / m) sec).
Proof.
  intros k row i Hk Hp Hl. unfold one_section.
  replace ((i + 1) * k + 1)%nat with (i * k + (k + 1))%nat by lia.
  pose proof (slice_window row (i * k) (k + 1) Hl) as W.
  set (sec := py_slice (i * k) (i * k + (k + 1)) row) in *.
  pose proof (proj1 W) as L. rewrite L, Nat.eqb_refl.
  destruct sec as [|x s] eqn:Es; [simpl in L; lia|]. cbn [row_max].
  destruct (fold_Rmax s x) as [M1 M2]. set (m := fold_left Rmax s x) in *.
  assert (Hm : 0 < m).
  { apply In_nth_error in M1. destruct M1 as [j Hj].
    assert (j < k + 1)%nat by (rewrite <- L; apply nth_error_Some; congruence).
    destruct W as [_ [_ W]]. rewrite W in Hj by auto. apply nth_error_In in Hj.
    rewrite Forall_forall in Hp. apply Hp. auto. }
  destruct (Req_EM_T m 0); [lra|]. exists (x :: s), m. repeat split; auto; apply W.
Qed.

Lemma all_some_spec : forall A (l : list (option A)), (forall x, In x l -> x <> None) ->
  exists r, all_some l = Some r /\ map Some r = l.
Proof.
  intros A l; induction l as [|[x|] l IH]; intros H.
  - exists []. auto.
  - destruct IH as [r [E M]]; [intros; apply H; right; auto|]. exists (x :: r). simpl. rewrite E, M. auto.
  - exfalso. apply (H None); simpl; auto.
Qed.

Lemma flat_map_const_nth : forall A B (f : nat -> B -> A) (rows : list B) m s i j row,
  (i < m)%nat -> nth_error rows j = Some row ->
  nth_error (flat_map (fun i => map (f i) rows) (seq s m)) (i * length rows + j) = Some (f (s + i)%nat row).
Proof.
  intros A B f rows m; induction m as [|m IH]; intros s i j row Hi Hj; [lia|].
  cbn [seq flat_map].
  assert (Hj' : (j < length rows)%nat) by (apply nth_error_Some; congruence).
  destruct i as [|i].
  - rewrite nth_error_app1 by (rewrite map_length; simpl; lia). simpl. rewrite nth_error_map, Hj.
    rewrite Nat.add_0_r. auto.
  - rewrite nth_error_app2 by (rewrite map_length; simpl; lia). rewrite map_length.
    replace (S i * length rows + j - length rows)%nat with (i * length rows + j)%nat by (simpl; lia).
    rewrite IH with (row := row) by (auto; lia). f_equal. f_equal. lia.
Qed.

Lemma flat_map_const_len : forall A B (f : nat -> B -> A) (rows : list B) l,
  length (flat_map (fun i => map (f i) rows) l) = (length l * length rows)%nat.
Proof. intros. induction l; simpl; auto. rewrite app_length, map_length, IHl. auto. Qed.

Lemma section_counts : forall vmax velfac box ss npix, 0 < box -> 0 < velfac -> vmax = box * velfac ->
  (2 <= npix)%nat -> box / (INR npix - 1) <= ss <= box ->
  let k := Z.to_nat (Zfloor (vmax / (box / ss * (vmax / (INR npix - 1))))) in
  let m := Z.to_nat (Zfloor (box / ss)) in
  (1 <= m)%nat /\ (1 <= k)%nat /\ (m * k + 1 <= npix)%nat /\
  INR m <= box / ss < INR m + 1 /\ INR k <= (INR npix - 1) * ss / box < INR k + 1.
Proof.
  intros vmax velfac box ss npix Hb Hv Ev Hn Hs k m.
  assert (Hn1 : 1 <= INR npix - 1).
  { assert (H := le_INR 2 npix Hn). simpl in H. lra. }
  assert (Hss : 0 < ss).
  { apply Rlt_le_trans with (box / (INR npix - 1)); [|lra]. apply Rdiv_lt_0_compat; lra. }
  assert (Hvm : 0 < vmax) by (subst; apply Rmult_lt_0_compat; auto).
  assert (E1 : vmax / (box / ss * (vmax / (INR npix - 1))) = (INR npix - 1) * ss / box) by (field; lra).
  assert (X : forall x, 1 <= x -> let j := Z.to_nat (Zfloor x) in (1 <= j)%nat /\ INR j <= x < INR j + 1).
  { intros x Hx j. assert (Hf : (1 <= Zfloor x)%Z) by (apply Zfloor_lub; simpl; lra).
    assert (Ej : INR j = IZR (Zfloor x)) by (unfold j; rewrite INR_IZR_INZ, Z2Nat.id by lia; auto).
    split; [unfold j; lia|]. rewrite Ej. split; [apply Zfloor_lb|apply Zfloor_ub]. }
  assert (A1 : 1 <= box / ss).
  { apply (Rmult_le_reg_r ss); auto. unfold Rdiv. rewrite Rmult_assoc, Rinv_l by lra. lra. }
  assert (A2 : 1 <= (INR npix - 1) * ss / box).
  { apply (Rmult_le_reg_r box); auto. unfold Rdiv. rewrite Rmult_assoc, Rinv_l by lra.
    rewrite Rmult_1_l, Rmult_1_r. destruct Hs as [Hs _].
    apply (Rmult_le_compat_l (INR npix - 1)) in Hs; [|lra].
    replace ((INR npix - 1) * (box / (INR npix - 1))) with box in Hs by (field; lra). lra. }
  unfold k. rewrite E1. destruct (X _ A1) as [M1 M2]. destruct (X _ A2) as [K1 K2].
  fold m in M1, M2. set (k' := Z.to_nat (Zfloor ((INR npix - 1) * ss / box))) in *.
  split; auto. split; auto. split; [|split; auto].
  assert (P : INR m * INR k' <= (box / ss) * ((INR npix - 1) * ss / box)).
  { apply Rmult_le_compat; try apply pos_INR; tauto. }
  replace (box / ss * ((INR npix - 1) * ss / box)) with (INR npix - 1) in P by (field; lra).
  rewrite <- mult_INR in P. apply INR_le. rewrite plus_INR. simpl (INR 1). lra.
Qed.

Lemma C43_renorm_aux : forall vmax velfac box ss npix flux, 0 < box -> 0 < velfac ->
  vmax = box * velfac -> (2 <= npix)%nat ->
  Forall (fun row => length row = npix /\ Forall (fun x => 0 < x) row) flux ->
  box / (INR npix - 1) <= ss <= box ->
  exists m k out, renormalize_flux vmax velfac box ss npix flux = Some out /\
    (1 <= m)%nat /\ (1 <= k)%nat /\ (m * k + 1 <= npix)%nat /\
    INR m <= box / ss < INR m + 1 /\ INR k <= (INR npix - 1) * ss / box < INR k + 1 /\
    length out = (m * length flux)%nat /\
    forall i j row, (i < m)%nat -> nth_error flux j = Some row ->
      exists sec mx, window (i * k) (k + 1) row sec /\ is_max sec mx /\ 0 < mx /\
        nth_error out (i * length flux + j) = Some (map (fun x => x / mx) sec).
Proof.
  intros vmax velfac box ss npix flux Hb Hv Ev Hn Hf Hs.
  destruct (section_counts vmax velfac box ss npix Hb Hv Ev Hn Hs) as [M1 [K1 [MK [M2 K2]]]].
  unfold renormalize_flux. destruct (Nat.eqb_spec npix 1); [lia|].
  destruct (Rlt_dec ss (vmax / (INR npix - 1) / velfac)) as [C|_].
  { exfalso. assert (Hn1 : 1 <= INR npix - 1).
    { assert (H := le_INR 2 npix Hn). simpl in H. lra. }
    replace (vmax / (INR npix - 1) / velfac) with (box / (INR npix - 1)) in C by (subst; field; lra). lra. }
  destruct (Rlt_dec box ss) as [C|_]; [lra|].
  set (k := Z.to_nat (Zfloor (vmax / (box / ss * (vmax / (INR npix - 1)))))) in *.
  set (m := Z.to_nat (Zfloor (box / ss))) in *.
  assert (S1 : forall i row, (i < m)%nat -> In row flux ->
    exists sec mx, window (i * k) (k + 1) row sec /\ is_max sec mx /\ 0 < mx /\
      one_section k row i = Some (map (fun x => x / mx) sec)).
  { intros i row Hi Hr. rewrite Forall_forall in Hf. destruct (Hf row Hr) as [L P].
    apply one_section_spec; auto. rewrite L. nia. }
  destruct (all_some_spec _ (flat_map (fun i => map (fun row => one_section k row i) flux) (seq 0 m)))
    as [out [E Mo]].
  { intros x Hx. apply in_flat_map in Hx. destruct Hx as [i [Hi Hx]]. apply in_map_iff in Hx.
    destruct Hx as [row [<- Hr]]. apply in_seq in Hi.
    destruct (S1 i row ltac:(lia) Hr) as [sec [mx [_ [_ [_ Eo]]]]]. rewrite Eo. discriminate. }
  exists m, k, out. split; auto. repeat (split; [tauto|]). split.
  - rewrite <- (map_length Some out), Mo.
    rewrite (flat_map_const_len _ _ (fun i row => one_section k row i)), seq_length. auto.
  - intros i j row Hi Hj. destruct (S1 i row Hi (nth_error_In _ _ Hj)) as [sec [mx [A [B [C D]]]]].
    exists sec, mx. repeat (split; auto).
    assert (G : nth_error (map Some out) (i * length flux + j) = Some (one_section k row i)).
    { rewrite Mo. apply (flat_map_const_nth _ _ (fun i row => one_section k row i) flux m 0 i j row); auto. }
    rewrite nth_error_map, D in G. destruct (nth_error out (i * length flux + j)); simpl in G; congruence.
Qed.

Lemma C43_reject_aux : forall vmax velfac box ss npix flux, 0 < box -> 0 < velfac ->
  vmax = box * velfac -> (2 <= npix)%nat -> ss < box / (INR npix - 1) \/ box < ss ->
  renormalize_flux vmax velfac box ss npix flux = None.
Proof.
  intros vmax velfac box ss npix flux Hb Hv Ev Hn Hs. unfold renormalize_flux.
  destruct (Nat.eqb_spec npix 1); auto.
  assert (Hn1 : 1 <= INR npix - 1).
  { assert (H := le_INR 2 npix Hn). simpl in H. lra. }
  replace (vmax / (INR npix - 1) / velfac) with (box / (INR npix - 1)) by (subst; field; lra).
  destruct (Rlt_dec ss (box / (INR npix - 1))); auto. destruct (Rlt_dec box ss); auto. lra.
Qed.

Lemma C43_normalised_aux : forall sec mx, is_max sec mx -> 0 < mx -> Forall (fun x => 0 < x) sec ->
  is_max (map (fun x => x / mx) sec) 1 /\ Forall (fun y => 0 < y <= 1) (map (fun x => x / mx) sec).
Proof.
  intros sec mx [Hi Hm] Hp Hf.
  assert (B : forall x, In x sec -> 0 < x / mx <= 1).
  { intros x Hx. rewrite Forall_forall in Hf. specialize (Hf x Hx). specialize (Hm x Hx).
    split; [apply Rdiv_lt_0_compat; auto|]. apply (Rmult_le_reg_r mx); auto.
    unfold Rdiv. rewrite Rmult_assoc, Rinv_l by lra. lra. }
  split; [split|].
  - apply in_map_iff. exists mx. split; auto. field. lra.
  - intros y Hy. apply in_map_iff in Hy. destruct Hy as [x [<- Hx]]. apply B; auto.
  - apply Forall_forall. intros y Hy. apply in_map_iff in Hy. destruct Hy as [x [<- Hx]]. apply B; auto.
Qed.

(** Two sections of a ten pixel spectrum: the last pixel is in neither. *)
Lemma C43_dropped_aux :
  exists vmax velfac box ss flux out, 0 < box /\ 0 < velfac /\ vmax = box * velfac /\
    box / (INR 10 - 1) <= ss <= box /\
    (forall row, In row flux -> length row = 10%nat /\ Forall (fun x => 0 < x) row) /\
    renormalize_flux vmax velfac box ss 10 flux = Some out /\
    (exists row, In row flux /\ last row 0 = 7 /\ Forall (fun x => x = 1) (removelast row)) /\
    Forall (Forall (fun y => y = 1)) out.
Proof.
  set (row := [1;1;1;1;1;1;1;1;1;7]).
  assert (Hrow : Forall (fun x => 0 < x) row) by (unfold row; repeat (apply Forall_cons; [lra|]); apply Forall_nil).
  destruct (C43_renorm_aux 2 1 2 1 10 [row]) as [m [k [out [E [M1 [K1 [MK [M2 [K2 [L Sx]]]]]]]]]]; try lra; try lia.
  { apply Forall_cons; auto. }
  { simpl. lra. }
  assert (Em : m = 2%nat).
  { destruct M2 as [M2 M3]. replace (2 / 1) with (INR 2) in * by (simpl; lra). apply INR_le in M2.
    replace (INR m + 1) with (INR (S m)) in M3 by (rewrite S_INR; auto). apply INR_lt in M3. lia. }
  assert (Ek : k = 4%nat).
  { destruct K2 as [K2 K3].
    assert (T : INR 10 = 10 /\ INR 5 = 5 /\ INR 4 = 4) by (simpl; lra).
    destruct T as [T10 [T5 T4]]. rewrite T10 in *.
    assert (A : INR k < INR 5) by lra. apply INR_lt in A.
    assert (B : INR 4 < INR (S k)) by (rewrite (S_INR k); lra). apply INR_lt in B. lia. }
  subst m k. exists 2, 1, 2, 1, [row], out.
  split; [lra|]. split; [lra|]. split; [lra|]. split; [simpl; lra|]. split.
  { intros r [<-|[]]. split; auto. }
  split; auto. split.
  { exists row. split; [left; auto|]. split; [reflexivity|]. unfold row. simpl.
    repeat (apply Forall_cons; [reflexivity|]). apply Forall_nil. }
  apply Forall_forall. intros o Ho. apply In_nth_error in Ho. destruct Ho as [i Hi].
  assert (Hi2 : (i < 2)%nat) by (change 2%nat with (2 * length [row])%nat; rewrite <- L; apply nth_error_Some; congruence).
  destruct (Sx i 0%nat row Hi2 eq_refl) as [sec [mx [W [Mx [Pm Eo]]]]]. cbn [length] in Eo.
  replace (i * 1 + 0)%nat with i in Eo by lia. rewrite Hi in Eo. inversion Eo; subst o.
  assert (One : forall x, In x sec -> x = 1).
  { intros x Hx. apply In_nth_error in Hx. destruct Hx as [j Hj]. destruct W as [Wl [_ W]].
    assert (Hj5 : (j < 5)%nat) by (change 5%nat with (4 + 1)%nat; rewrite <- Wl; apply nth_error_Some; congruence).
    rewrite W in Hj by lia.
    assert (Hij : (i * 4 + j < 9)%nat) by nia.
    assert (G : forall q, (q < 9)%nat -> nth_error row q = Some 1).
    { intros q Hq. do 9 (destruct q as [|q]; [reflexivity|]). lia. }
    rewrite (G _ Hij) in Hj. congruence. }
  apply Forall_forall. intros y Hy. apply in_map_iff in Hy. destruct Hy as [x [<- Hx]].
  rewrite (One x Hx), (One mx (proj1 Mx)). field.
Qed.
