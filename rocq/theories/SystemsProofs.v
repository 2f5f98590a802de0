(** Proofs about the merging of absorbers. *)
From Coq Require Import ZArith List Bool QArith Qround Qfield Lqa Lia Permutation Sorting.Sorted Arith.
From Verif Require Import SystemsModel SystemsSpec.
Import ListNotations.
Local Open Scope Z_scope.

(** ** Array operations *)

Lemma delete_app : forall A (l1 : list A) x l2, np_delete (l1 ++ x :: l2) (length l1) = l1 ++ l2.
Proof.
  intros A l1 x l2. unfold np_delete. f_equal.
  - rewrite firstn_app, Nat.sub_diag, firstn_all. simpl. apply app_nil_r.
  - induction l1; simpl; auto.
Qed.

Lemma update_app : forall A (l1 : list A) x l2 f, update (l1 ++ x :: l2) (length l1) f = l1 ++ f x :: l2.
Proof.
  intros A l1 x l2 f. unfold update. f_equal.
  - rewrite firstn_app, Nat.sub_diag, firstn_all. simpl. apply app_nil_r.
  - induction l1; simpl; auto.
Qed.

Lemma delete_length : forall A (l : list A) i, (i < length l)%nat -> length (np_delete l i) = (length l - 1)%nat.
Proof. intros A l i H. unfold np_delete. rewrite app_length, firstn_length, skipn_length. lia. Qed.

Lemma in_delete : forall A (l : list A) i x, In x (np_delete l i) -> In x l.
Proof.
  intros A l; induction l as [|y l IH]; intros [|i] x H; unfold np_delete in *; simpl in *; auto.
  destruct H as [H|H]; auto. right. apply (IH i). auto.
Qed.

Lemma update_length : forall A (l : list A) i f, length (update l i f) = length l.
Proof.
  intros A l i f. unfold update. rewrite app_length, firstn_length.
  pose proof (skipn_length i l) as E. destruct (skipn i l); simpl in *; lia.
Qed.

Lemma subtract_cons : forall x a y b, subtract (x :: a) (y :: b) = (x - y) :: subtract a b.
Proof. reflexivity. Qed.

Lemma subtract_delete : forall a b i, length a = length b ->
  subtract (np_delete a i) (np_delete b i) = np_delete (subtract a b) i.
Proof.
  intros a; induction a as [|x a IH]; intros [|y b] i H; simpl in H; try discriminate.
  - unfold np_delete. destruct i; reflexivity.
  - destruct i as [|i].
    + reflexivity.
    + change (np_delete (x :: a) (S i)) with (x :: np_delete a i).
      change (np_delete (y :: b) (S i)) with (y :: np_delete b i).
      rewrite !subtract_cons. rewrite IH by lia. reflexivity.
Qed.

Lemma subtract_length : forall a b, length a = length b -> length (subtract a b) = length a.
Proof. intros a b H. unfold subtract. rewrite map_length, combine_length. lia. Qed.

Lemma argmin_from_spec : forall l pre best ibest,
  nth_error (pre ++ l) ibest = Some best -> (forall x, In x pre -> best <= x) ->
  exists m, nth_error (pre ++ l) (argmin_from l best ibest (length pre)) = Some m /\
    (forall x, In x (pre ++ l) -> m <= x).
Proof.
  intros l; induction l as [|y l IH]; intros pre best ibest Hb Hm; simpl.
  - exists best. split; auto. rewrite app_nil_r in *. auto.
  - destruct (Z.ltb_spec y best) as [Hlt|Hge].
    + specialize (IH (pre ++ [y]) y (length pre)). rewrite <- app_assoc in IH. simpl in IH.
      rewrite app_length in IH. simpl in IH. rewrite Nat.add_1_r in IH. apply IH.
      * rewrite nth_error_app2, Nat.sub_diag by lia. auto.
      * intros x Hx. apply in_app_iff in Hx. destruct Hx as [Hx|[<-|[]]]; [|lia].
        specialize (Hm x Hx). lia.
    + specialize (IH (pre ++ [y]) best ibest). rewrite <- app_assoc in IH. simpl in IH.
      rewrite app_length in IH. simpl in IH. rewrite Nat.add_1_r in IH. apply IH; auto.
      intros x Hx. apply in_app_iff in Hx. destruct Hx as [Hx|[<-|[]]]; [|lia]. auto.
Qed.

Lemma fold_min_spec : forall l x, In (fold_left Z.min l x) (x :: l) /\
  forall y, In y (x :: l) -> fold_left Z.min l x <= y.
Proof.
  intros l; induction l as [|z l IH]; intros x; cbn [fold_left].
  - split; [left; auto|]. intros y [<-|[]]. lia.
  - destruct (IH (Z.min x z)) as [I1 I2]. split.
    + destruct I1 as [E|I1]; [|right; right; auto]. rewrite <- E.
      destruct (Z.min_spec x z) as [[_ M]|[_ M]]; rewrite M; [left|right; left]; auto.
    + intros y Hy. pose proof (I2 (Z.min x z) (or_introl eq_refl)).
      destruct Hy as [<-|[<-|Hy]]; try lia. apply I2. right; auto.
Qed.

Lemma argmin_spec : forall l, l <> [] ->
  nth_error l (argmin l) = Some (minimum l) /\ (forall x, In x l -> minimum l <= x).
Proof.
  intros [|x t] H; [congruence|]. simpl minimum. destruct (fold_min_spec t x) as [F1 F2].
  split; auto. unfold argmin.
  destruct (argmin_from_spec t [x] x 0 eq_refl) as [m [E M]].
  { intros y [<-|[]]. lia. }
  simpl in E, M. rewrite E. f_equal. apply Z.le_antisymm.
  - apply M. auto.
  - apply F2. apply (nth_error_In _ _ E).
Qed.

Lemma nth_split_two : forall A (l : list A) i x, nth_error l i = Some x ->
  exists l1 l2, l = l1 ++ x :: l2 /\ length l1 = i.
Proof. intros A l i x H. apply nth_error_split in H. destruct H as [l1 [l2 [-> <-]]]. eauto. Qed.

(** ** Gaps of a list of groups *)

Section Gaps.
Variable w : Z.

Fixpoint chain (gs : list (list (Z * Z))) (f : list (Z * Z)) : list Z :=
  match gs with
  | [] => []
  | [g] => [group_gap w g f]
  | g :: ((h :: _) as t) => group_gap w g h :: chain t f
  end.

Lemma chain_cons2 : forall g h t f, chain (g :: h :: t) f = group_gap w g h :: chain (h :: t) f.
Proof. reflexivity. Qed.

Lemma chain_length : forall gs f, length (chain gs f) = length gs.
Proof.
  intros gs f. induction gs as [|g gs IH]; auto. destruct gs as [|h t]; auto.
  rewrite chain_cons2. simpl length in *. rewrite IH. auto.
Qed.

Lemma last_app_ne : forall A (g h : list A) d, h <> [] -> last (g ++ h) d = last h d.
Proof.
  intros A g h d H. induction g as [|x g IH]; auto. simpl.
  destruct (g ++ h) eqn:E; [apply app_eq_nil in E; tauto|]. rewrite <- E in *. auto.
Qed.

Lemma hd_app_ne : forall A (g h : list A) d, g <> [] -> hd d (g ++ h) = hd d g.
Proof. intros A [|x g] h d H; [congruence|auto]. Qed.

Lemma gap_app_l : forall g h x, h <> [] -> group_gap w (g ++ h) x = group_gap w h x.
Proof. intros. unfold group_gap. rewrite last_app_ne; auto. Qed.

Lemma gap_app_r : forall g h x, g <> [] -> group_gap w x (g ++ h) = group_gap w x g.
Proof. intros. unfold group_gap. rewrite hd_app_ne; auto. Qed.

Lemma chain_first : forall gs f f', hd (0, 0) f = hd (0, 0) f' -> chain gs f = chain gs f'.
Proof.
  intros gs f f' H. induction gs as [|g gs IH]; auto. destruct gs as [|h t].
  - simpl. unfold group_gap. rewrite H. auto.
  - rewrite !chain_cons2, IH. auto.
Qed.

(** Splitting the gaps where two groups meet. *)
Lemma chain_merge : forall A g h B f, g <> [] -> h <> [] ->
  exists d1 d2, chain (A ++ g :: h :: B) f = d1 ++ group_gap w g h :: d2 /\ length d1 = length A /\
    chain (A ++ (g ++ h) :: B) f = d1 ++ d2.
Proof.
  intros A; induction A as [|a A IH]; intros g h B f Hg Hh.
  - exists [], (chain (h :: B) f). simpl app. rewrite chain_cons2. split; auto. split; auto.
    destruct B as [|b B].
    + simpl. rewrite gap_app_l; auto.
    + rewrite !chain_cons2. rewrite gap_app_l; auto.
  - destruct (IH g h B f Hg Hh) as [d1 [d2 [E1 [E2 E3]]]].
    destruct A as [|a' A].
    + destruct d1; [|simpl in E2; lia]. exists [group_gap w a g], d2. simpl app in *.
      rewrite chain_cons2, E1. split; auto. split; auto.
      rewrite chain_cons2, E3. simpl. rewrite gap_app_r; auto.
    + exists (group_gap w a a' :: d1), d2. simpl app in *. rewrite !chain_cons2, E1, E3.
      split; auto. split; [simpl in *; lia|auto].
Qed.

Lemma chain_snoc : forall M g f, M <> [] -> chain (M ++ [g]) f = chain M g ++ [group_gap w g f].
Proof.
  intros M; induction M as [|m M IH]; intros g f H; [congruence|]. destruct M as [|m' M].
  - reflexivity.
  - simpl app in *. rewrite !chain_cons2. rewrite IH by discriminate. auto.
Qed.

Lemma separated_chain : forall close gs f, separated w close gs f <-> Forall (fun d => close <= d) (chain gs f).
Proof.
  intros close gs f. induction gs as [|g gs IH]; [split; [constructor|simpl; auto]|].
  destruct gs as [|h t].
  - simpl. split; [intros; constructor; auto|]. intros H. inversion H; auto.
  - rewrite chain_cons2. change (separated w close (g :: h :: t) f) with
      (close <= group_gap w g h /\ separated w close (h :: t) f). rewrite IH. split.
    + intros [H1 H2]. constructor; auto.
    + intros H. inversion H; auto.
Qed.
End Gaps.

Lemma linked_app : forall w close g h, linked w close g -> linked w close h -> g <> [] -> h <> [] ->
  group_gap w g h < close -> linked w close (g ++ h).
Proof.
  intros w close g; induction g as [|c g IH]; intros h Hg Hh Hne Hhne Hgap; [congruence|].
  destruct g as [|d g].
  - destruct h as [|e h]; [congruence|]. simpl in *. split; auto.
  - change (linked w close (c :: (d :: g) ++ h)). change (c :: (d :: g) ++ h) with (c :: d :: (g ++ h)).
    destruct Hg as [H1 H2]. split; auto. apply IH; auto. discriminate.
Qed.

Definition gsum (g : list (Z * Z)) : Z := total (map snd g).

Lemma gsum_app : forall g h, gsum (g ++ h) = gsum g + gsum h.
Proof.
  intros g h. unfold gsum, total. rewrite map_app. induction (map snd g); cbn [app fold_right]; lia.
Qed.

(** ** The loop *)

Definition rotation {A} (l m : list A) : Prop := exists l1 l2, l = l1 ++ l2 /\ m = l2 ++ l1.

Lemma rotation_step : forall A (l : list A) a b, rotation l (a ++ b) -> rotation l (b ++ a).
Proof.
  intros A l a b [l1 [l2 [-> E]]].
  (* a ++ b = l2 ++ l1 *)
  revert a b E. intros a b E.
  assert (C : exists c, (a = l2 ++ c /\ l1 = c ++ b) \/ (l2 = a ++ c /\ b = c ++ l1)).
  { revert l2 l1 b E. induction a as [|x a IH]; intros l2 l1 b E.
    - exists l2. right. split; auto.
    - destruct l2 as [|y l2].
      + exists (x :: a). left. split; auto.
      + inversion E as [[E1 E2]]. destruct (IH _ _ _ E2) as [c [[-> ->]|[-> ->]]]; exists c; [left|right]; auto. }
  destruct C as [c [[-> ->]|[-> ->]]].
  - (* l = (c ++ b) ++ l2 ; want rotation to b ++ l2 ++ c *)
    exists c, (b ++ l2). rewrite <- !app_assoc. auto.
  - exists (l1 ++ a), c. rewrite <- !app_assoc. auto.
Qed.

(** ** Positions *)

Definition asc (g : list (Z * Z)) : Prop := StronglySorted (fun a b => fst a < fst b) g.

Definition pl (w : Z) (g : list (Z * Z)) (p : Q) : Prop :=
  (forall a, g = [a] -> p = inject_Z (fst a)) /\
  (forall a b, g = [a; b] -> fst a < fst b -> p = ((inject_Z (fst a) + inject_Z (fst b)) / 2)%Q) /\
  (forall a b, g = [a; b] -> fst b <= fst a ->
     p = qmod ((inject_Z (fst a) + inject_Z (fst b) + inject_Z w) / 2)%Q (inject_Z w)) /\
  (asc g -> inject_Z (fst (hd (0, 0)%Z g)) <= p /\ p <= inject_Z (fst (last g (0, 0)%Z)))%Q.

Lemma sorted_app : forall g h, asc (g ++ h) <->
  asc g /\ asc h /\ (forall a b, In a g -> In b h -> fst a < fst b).
Proof.
  unfold asc. intros g h. induction g as [|x g IH]; simpl.
  - split; [intros H; repeat split; auto; [constructor|contradiction]|intros [_ [H _]]; auto].
  - split.
    + intros H. inversion H as [|? ? H1 H2]; subst. apply IH in H1. destruct H1 as [A [B C]].
      rewrite Forall_forall in H2. split; [|split; auto].
      * constructor; auto. apply Forall_forall. intros y Hy. apply H2. apply in_or_app; auto.
      * intros a b [->|Ha] Hb; [apply H2, in_or_app; auto|auto].
    + intros [A [B C]]. inversion A as [|? ? A1 A2]; subst. constructor.
      * apply IH. repeat split; auto.
      * apply Forall_forall. intros y Hy. apply in_app_or in Hy. destruct Hy as [Hy|Hy].
        -- rewrite Forall_forall in A2. auto.
        -- apply C; auto.
Qed.

Lemma in_last : forall A (g : list A) d, g <> [] -> In (last g d) g.
Proof.
  intros A g d. induction g as [|x g IH]; [congruence|]. intros _. destruct g as [|y g]; [left; auto|].
  right. apply IH. discriminate.
Qed.

Lemma in_hd : forall A (g : list A) d, g <> [] -> In (hd d g) g.
Proof. intros A [|x g] d H; [congruence|left; auto]. Qed.

Lemma app_single : forall A (g h : list A) a b, g <> [] -> h <> [] -> g ++ h = [a; b] -> g = [a] /\ h = [b].
Proof.
  intros A g h a b Hg Hh E. destruct g as [|x [|y g]]; [congruence| |].
  - simpl in E. injection E as -> ->. auto.
  - simpl in E. injection E as -> -> E. destruct g; [|discriminate]. simpl in E. congruence.
Qed.

Lemma app_one : forall A (g h : list A) a, g <> [] -> h <> [] -> g ++ h <> [a].
Proof. intros A [|x [|y g]] [|z h] a Hg Hh E; try congruence; simpl in E; discriminate. Qed.

Lemma inject_lt : forall a b, a < b -> (inject_Z a < inject_Z b)%Q.
Proof. intros a b H. rewrite <- Zlt_Qlt. auto. Qed.


Lemma pl_join : forall w g h p q, g <> [] -> h <> [] -> pl w g p -> pl w h q ->
  (forall a b, g = [a] -> h = [b] -> fst a < fst b) -> pl w (g ++ h) ((p + q) / 2)%Q.
Proof.
  intros w g h p q Hg Hh [P1 [P2 [P3 P4]]] [Q1 [Q2 [Q3 Q4]]] Hl.
  split; [|split; [|split]].
  - intros a E. exfalso. exact (app_one _ _ _ _ Hg Hh E).
  - intros a b E _. destruct (app_single _ _ _ _ _ Hg Hh E) as [E1 E2].
    rewrite (P1 _ E1), (Q1 _ E2). auto.
  - intros a b E L. destruct (app_single _ _ _ _ _ Hg Hh E) as [E1 E2].
    specialize (Hl _ _ E1 E2). lia.
  - intros A. apply sorted_app in A. destruct A as [A1 [A2 A3]].
    rewrite hd_app_ne, last_app_ne by auto.
    specialize (P4 A1). specialize (Q4 A2).
    assert (X : (inject_Z (fst (last g (0, 0)%Z)) < inject_Z (fst (hd (0, 0)%Z h)))%Q).
    { apply inject_lt. apply A3; [apply in_last|apply in_hd]; auto. }
    set (u := inject_Z (fst (hd (0, 0)%Z g))) in *. set (v := inject_Z (fst (last h (0, 0)%Z))) in *.
    set (u' := inject_Z (fst (hd (0, 0)%Z h))) in *. set (v' := inject_Z (fst (last g (0, 0)%Z))) in *.
    assert (Y : ((p + q) / 2 == (1#2) * (p + q))%Q) by (unfold Qdiv; rewrite Qmult_comm; reflexivity).
    rewrite Y. destruct P4, Q4. split; Lqa.lra.
Qed.

Lemma pl_wrap : forall w g h p q, g <> [] -> h <> [] -> pl w g p -> pl w h q -> ~ asc (g ++ h) ->
  pl w (g ++ h) (qmod ((p + q + inject_Z w) / 2)%Q (inject_Z w)).
Proof.
  intros w g h p q Hg Hh [P1 [P2 [P3 P4]]] [Q1 [Q2 [Q3 Q4]]] Hn.
  split; [|split; [|split]].
  - intros a E. exfalso. exact (app_one _ _ _ _ Hg Hh E).
  - intros a b E L. exfalso. apply Hn. rewrite E. repeat constructor. auto.
  - intros a b E L. destruct (app_single _ _ _ _ _ Hg Hh E) as [E1 E2].
    rewrite (P1 _ E1), (Q1 _ E2). auto.
  - intros A. contradiction.
Qed.

Lemma qmod_spec : forall x w, (0 < w)%Q -> (0 <= qmod x w /\ qmod x w < w /\
  qmod x w + inject_Z (Qfloor (x / w)) * w == x)%Q.
Proof.
  intros x w H. unfold qmod.
  pose proof (Qfloor_le (x / w)) as L. pose proof (Qlt_floor (x / w)) as U.
  rewrite inject_Z_plus in U. set (k := inject_Z (Qfloor (x / w))) in *.
  assert (E : (x == w * (x / w))%Q) by (field; intros Z; rewrite Z in H; Lqa.lra).
  set (y := (x / w)%Q) in *. split; [|split].
  - rewrite E. setoid_replace (w * y - w * k)%Q with (w * (y - k))%Q by ring.
    apply Qmult_le_0_compat; Lqa.lra.
  - rewrite E. assert (0 < w * (1 - (y - k)))%Q.
    { apply Qmult_lt_0_compat; auto. change (inject_Z 1) with 1%Q in U. Lqa.lra. }
    assert (w * (1 - (y - k)) == w - (w * y - w * k))%Q by ring. Lqa.lra.
  - ring.
Qed.

Lemma pl_placed : forall w g p, 0 < w -> (forall c, In c g -> 0 <= fst c < w) -> NoDup (map fst g) ->
  pl w g p -> placed w g p.
Proof.
  intros w g p Hw Hr Hnd [P1 [P2 [P3 P4]]]. split; [|split].
  - intros a E. rewrite (P1 _ E). reflexivity.
  - intros a b E.
    assert (Ra : 0 <= fst a < w) by (apply Hr; rewrite E; simpl; auto).
    assert (Rb : 0 <= fst b < w) by (apply Hr; rewrite E; simpl; auto).
    destruct (Z_lt_le_dec (fst a) (fst b)) as [L|L].
    + rewrite (P2 _ _ E L). unfold ahead. rewrite Z.mod_small by lia.
      assert (X : (0 <= inject_Z (fst a))%Q) by (rewrite <- (Zle_Qle 0); lia).
      assert (Y : (inject_Z (fst a) < inject_Z (fst b))%Q) by (apply inject_lt; auto).
      assert (Z1 : (inject_Z (fst b) < inject_Z w)%Q) by (apply inject_lt; lia).
      rewrite <- Z.add_opp_r, inject_Z_plus, inject_Z_opp.
      set (u := inject_Z (fst a)) in *. set (v := inject_Z (fst b)) in *. set (W := inject_Z w) in *.
      assert (E2 : ((u + v) / 2 == (1#2) * (u + v))%Q) by (unfold Qdiv; rewrite Qmult_comm; reflexivity).
      rewrite E2. split; [Lqa.lra|]. split; [Lqa.lra|]. exists 0. simpl inject_Z.
      change (inject_Z 0) with 0%Q. field.
    + rewrite (P3 _ _ E L).
      assert (Wp : (0 < inject_Z w)%Q) by (apply (inject_lt 0); auto).
      destruct (qmod_spec ((inject_Z (fst a) + inject_Z (fst b) + inject_Z w) / 2) _ Wp) as [M1 [M2 M3]].
      split; auto. split; auto. unfold ahead.
      destruct (Z.eq_dec (fst a) (fst b)) as [Q|Q].
      * exfalso. rewrite E in Hnd. simpl in Hnd. inversion Hnd as [|? ? N _]; subst. apply N. left; auto.
      * replace ((fst b - fst a) mod w) with (fst b - fst a + w).
        2:{ rewrite <- (Z_mod_plus_full _ 1). rewrite Z.mul_1_l, Z.mod_small; lia. }
        eexists. rewrite M3. rewrite inject_Z_plus, <- Z.add_opp_r, inject_Z_plus, inject_Z_opp. field.
  - exact P4.
Qed.

Lemma placed_all : forall w gs pos, 0 < w -> (forall c, In c (concat gs) -> 0 <= fst c < w) ->
  NoDup (map fst (concat gs)) -> Forall2 (pl w) gs pos -> Forall2 (placed w) gs pos.
Proof.
  intros w gs pos Hw Hr Hnd F. induction F as [|g p gs pos P F IH]; [constructor|].
  simpl in Hr, Hnd. rewrite map_app in Hnd. constructor.
  - apply pl_placed; auto.
    + intros c Hc. apply Hr. apply in_or_app; auto.
    + revert Hnd. generalize (map fst g). intros l. induction l as [|x l IHl]; intros N; [constructor|].
      inversion N; subst. constructor; auto. intros I. apply H1. apply in_or_app; auto.
  - apply IH.
    + intros c Hc. apply Hr. apply in_or_app; auto.
    + revert Hnd. generalize (map fst g). intros l. induction l as [|x l IHl]; intros N; auto.
      inversion N; subst. auto.
Qed.

(** The group before the boundary is either not yet merged with the one after it, or they are
    both part of the first group. *)
Definition seam (gs : list (list (Z * Z))) : Prop :=
  asc (concat gs) \/ (~ asc (hd [] gs) /\ asc (concat (tl gs))).

Lemma pos_wrap : forall (q0 : Q) PM ql f i, i = length (q0 :: PM) ->
  nth i (q0 :: PM ++ [ql]) 0%Q = ql /\ np_delete (update (q0 :: PM ++ [ql]) 0 f) i = f q0 :: PM.
Proof.
  intros q0 PM ql f i ->. split.
  - change (q0 :: PM ++ [ql]) with ((q0 :: PM) ++ [ql]). rewrite app_nth2 by lia.
    rewrite Nat.sub_diag. reflexivity.
  - change (q0 :: PM ++ [ql]) with ([] ++ q0 :: (PM ++ [ql])).
    change 0%nat with (length (@nil Q)). rewrite update_app. cbn [app length].
    change (f q0 :: PM ++ [ql]) with ((f q0 :: PM) ++ ql :: []).
    change (S (length PM)) with (length (f q0 :: PM)). rewrite delete_app. apply app_nil_r.
Qed.

Lemma pos_mid : forall PA (q r : Q) PB f i, i = length PA ->
  nth i (PA ++ q :: r :: PB) 0%Q = q /\ np_delete (update (PA ++ q :: r :: PB) (S i) f) i = PA ++ f r :: PB.
Proof.
  intros PA q r PB f i ->. split.
  - rewrite app_nth2 by lia. rewrite Nat.sub_diag. reflexivity.
  - replace (PA ++ q :: r :: PB) with ((PA ++ [q]) ++ r :: PB) by (rewrite <- app_assoc; auto).
    replace (S (length PA)) with (length (PA ++ [q])) by (rewrite app_length; simpl; lia).
    rewrite update_app. rewrite <- app_assoc. cbn [app]. apply delete_app.
Qed.

Lemma Forall2_length : forall A B (R : A -> B -> Prop) l l', Forall2 R l l' -> length l = length l'.
Proof. intros A B R l l' H. induction H; simpl; congruence. Qed.

Lemma Forall2_snoc_l : forall A B (R : A -> B -> Prop) l a l', Forall2 R (l ++ [a]) l' ->
  exists m b, l' = m ++ [b] /\ Forall2 R l m /\ R a b.
Proof.
  intros A B R l a l' H. apply Forall2_app_inv_l in H. destruct H as [m [m' [H1 [H2 ->]]]].
  inversion H2 as [|? b ? m'' Hb Hm]; subst. inversion Hm; subst. eauto.
Qed.

Lemma place_wrap : forall w g0 M gl pos, g0 <> [] -> gl <> [] ->
  Forall2 (pl w) (g0 :: M ++ [gl]) pos -> seam (g0 :: M ++ [gl]) ->
  Forall2 (pl w) ((gl ++ g0) :: M)
    (np_delete (update pos 0 (fun p => qmod ((nth (length (g0 :: M)) pos 0 + p + inject_Z w) / 2)%Q (inject_Z w)))
       (length (g0 :: M))) /\ seam ((gl ++ g0) :: M).
Proof.
  intros w g0 M gl pos N0 Nl F S0.
  assert (Na : ~ asc (gl ++ g0)).
  { intros A. apply sorted_app in A. destruct A as [A1 [A2 A3]].
    destruct S0 as [S0|[S0 _]].
    - simpl concat in S0. rewrite concat_app in S0. simpl in S0. rewrite app_nil_r in S0.
      apply sorted_app in S0. destruct S0 as [_ [_ S0]].
      specialize (S0 _ (last gl (0, 0)) (in_hd _ g0 (0, 0) N0) ltac:(apply in_or_app; right; apply in_last; auto)).
      specialize (A3 _ _ (in_last _ gl (0, 0) Nl) (in_hd _ g0 (0, 0) N0)). lia.
    - simpl in S0. contradiction. }
  inversion F as [|? q0 ? PM' F0 F1]; subst. apply Forall2_snoc_l in F1.
  destruct F1 as [PM [ql [-> [FM Fl]]]].
  assert (LM : length (g0 :: M) = length (q0 :: PM)) by (simpl; f_equal; eapply Forall2_length; eauto).
  rewrite LM. split.
  - destruct (pos_wrap q0 PM ql
      (fun p => qmod ((nth (length (q0 :: PM)) (q0 :: PM ++ [ql]) 0 + p + inject_Z w) / 2)%Q (inject_Z w))
      _ eq_refl) as [E1 E2].
    rewrite E2. constructor; auto. rewrite E1. apply pl_wrap; auto.
  - right. cbn [hd tl]. split; auto.
    destruct S0 as [S0|[_ S0]].
    + simpl in S0. rewrite concat_app in S0. apply sorted_app in S0. destruct S0 as [_ [S0 _]].
      apply sorted_app in S0. tauto.
    + simpl in S0. rewrite concat_app in S0. apply sorted_app in S0. tauto.
Qed.

Lemma place_mid : forall w A g h B pos, g <> [] -> h <> [] ->
  Forall2 (pl w) (A ++ g :: h :: B) pos -> seam (A ++ g :: h :: B) ->
  Forall2 (pl w) (A ++ (g ++ h) :: B)
    (np_delete (update pos (S (length A)) (fun p => (nth (length A) pos 0 + p) / 2)%Q) (length A)) /\
  seam (A ++ (g ++ h) :: B).
Proof.
  intros w A g h B pos Ng Nh F S0.
  apply Forall2_app_inv_l in F. destruct F as [PA [P' [FA [F ->]]]].
  inversion F as [|? q ? P2 Fg F2]; subst. inversion F2 as [|? r ? PB Fh FB]; subst.
  assert (LA : length A = length PA) by (eapply Forall2_length; eauto).
  rewrite LA. split.
  - destruct (pos_mid PA q r PB (fun p => (nth (length PA) (PA ++ q :: r :: PB) 0 + p) / 2)%Q _ eq_refl)
      as [E1 E2].
    rewrite E2. apply Forall2_app; auto. constructor; auto. rewrite E1. apply pl_join; auto.
    intros a b -> ->. destruct S0 as [S0|[S1 S2]].
    + rewrite concat_app in S0. simpl in S0. apply sorted_app in S0. destruct S0 as [_ [S0 _]].
      inversion S0 as [|? ? _ S3]; subst. inversion S3; auto.
    + destruct A as [|a0 A].
      * exfalso. apply S1. simpl. repeat constructor.
      * simpl in S2. rewrite concat_app in S2. simpl in S2. apply sorted_app in S2. destruct S2 as [_ [S2 _]].
        inversion S2 as [|? ? _ S3]; subst. inversion S3; auto.
  - destruct S0 as [S0|[S1 S2]]; [left|right].
    + replace (concat (A ++ (g ++ h) :: B)) with (concat (A ++ g :: h :: B)); auto.
      rewrite !concat_app. simpl. rewrite !app_assoc. auto.
    + destruct A as [|a0 A]; cbn [app hd tl] in *.
      * split.
        -- intros X. apply S1. apply sorted_app in X. tauto.
        -- cbn [concat] in S2. apply sorted_app in S2. tauto.
      * split; auto. replace (concat (A ++ (g ++ h) :: B)) with (concat (A ++ g :: h :: B)); auto.
        rewrite !concat_app. simpl. rewrite !app_assoc. auto.
Qed.

Record inv (w close : Z) (s : list (Z * Z)) (gs : list (list (Z * Z)))
  (colden : list Z) (pos : list Q) (maxpos minpos : list Z) : Prop := {
  inv_rot : rotation s (concat gs);
  inv_ne : Forall (fun g => g <> []) gs;
  inv_link : Forall (linked w close) gs;
  inv_col : colden = map gsum gs;
  inv_pos : length pos = length gs;
  inv_place : Forall2 (pl w) gs pos;
  inv_seam : seam gs;
  inv_max : length maxpos = length gs;
  inv_min : length minpos = length gs;
  inv_gap : subtract minpos maxpos = chain w gs (hd [] gs)
}.

Lemma nth_map_gsum : forall A g B, nth (length A) (map gsum (A ++ g :: B)) 0 = gsum g.
Proof.
  intros A g B. rewrite map_app. rewrite app_nth2; rewrite map_length; [|lia].
  rewrite Nat.sub_diag. reflexivity.
Qed.

Lemma loop_spec : forall fuel w close s gs colden pos maxpos minpos,
  inv w close s gs colden pos maxpos minpos -> (2 <= length gs)%nat -> (length gs <= fuel)%nat ->
  Forall (fun d => 0 < d) (chain w gs (hd [] gs)) ->
  exists gs' pos', merge_loop fuel w close colden pos maxpos minpos = Systems (map gsum gs') pos' /\
    length pos' = length gs' /\ Forall2 (pl w) gs' pos' /\
    rotation s (concat gs') /\ Forall (fun g => g <> []) gs' /\ Forall (linked w close) gs' /\
    (1 <= length gs' <= length gs)%nat /\
    (length gs' = 1%nat \/ separated w close gs' (hd [] gs')).
Proof.
  intros fuel; induction fuel as [|fuel IH]; intros w close s gs colden pos maxpos minpos I H2 Hf Hpos; [lia|].
  destruct I as [I1 I2 I3 I4 I5 Ipl Ism I6 I7 I8].
  cbn [merge_loop]. cbv zeta. rewrite I8.
  assert (Hcne : chain w gs (hd [] gs) <> []).
  { intros E. apply (f_equal (@length Z)) in E. rewrite chain_length in E. simpl in E. lia. }
  destruct (argmin_spec _ Hcne) as [Hm1 Hm2].
  set (ds := chain w gs (hd [] gs)) in *.
  destruct (Z.ltb_spec (minimum ds) close) as [Hlt|Hge].
  - set (i := argmin ds) in *.
    assert (Hlen : length ds = length gs) by apply chain_length.
    assert (Hi : (i < length gs)%nat).
    { rewrite <- Hlen. apply nth_error_Some. congruence. }
    rewrite Hlen.
    assert (Hd2 : subtract (np_delete minpos i) (np_delete maxpos i) = np_delete ds i).
    { rewrite subtract_delete by lia. rewrite I8. auto. }
    rewrite Hd2.
    assert (Step : exists gs2, map gsum gs2 = np_delete (update colden
        (if Nat.eqb i (length gs - 1) then 0%nat else S i) (fun c => c + nth i colden 0)) i /\
      rotation s (concat gs2) /\ Forall (fun g => g <> []) gs2 /\ Forall (linked w close) gs2 /\
      length gs2 = (length gs - 1)%nat /\ np_delete ds i = chain w gs2 (hd [] gs2) /\
      Forall2 (pl w) gs2 (np_delete (if Nat.eqb i (length gs - 1) then
          update pos (if Nat.eqb i (length gs - 1) then 0%nat else S i)
            (fun p => qmod ((nth i pos 0 + p + inject_Z w) / 2)%Q (inject_Z w))
        else update pos (if Nat.eqb i (length gs - 1) then 0%nat else S i)
            (fun p => ((nth i pos 0 + p) / 2)%Q)) i) /\ seam gs2).
    { destruct (Nat.eqb_spec i (length gs - 1)) as [El|Enl].
      - (* last with first *)
        destruct gs as [|g0 gs]; [simpl in H2; lia|].
        destruct (@exists_last _ gs ltac:(destruct gs; [simpl in H2; lia|discriminate])) as [M [gl ->]].
        exists ((gl ++ g0) :: M).
        assert (Ei : i = length (g0 :: M)) by (rewrite El; simpl; rewrite app_length; simpl; lia).
        inversion I2 as [|? ? N0 N1]; subst. apply Forall_app in N1. destruct N1 as [NM Nl].
        inversion Nl as [|? ? Ngl _]; subst.
        inversion I3 as [|? ? L0 L1]; subst. apply Forall_app in L1. destruct L1 as [LM Ll].
        inversion Ll as [|? ? Lgl _]; subst.
        assert (Eds : ds = chain w (g0 :: M) gl ++ [group_gap w gl g0]).
        { unfold ds. cbn [hd]. change (g0 :: M ++ [gl]) with ((g0 :: M) ++ [gl]).
          apply chain_snoc. discriminate. }
        assert (Hg : group_gap w gl g0 < close).
        { assert (Q : nth_error ds i = Some (group_gap w gl g0)).
          { rewrite Eds. rewrite nth_error_app2; rewrite chain_length; [|lia].
            rewrite Ei, Nat.sub_diag. reflexivity. }
          rewrite Hm1 in Q. inversion Q. lia. }
        pose proof (place_wrap w g0 M gl pos N0 Ngl Ipl Ism) as PW. rewrite <- Ei in PW.
        split; [|split; [|split; [|split; [|split; [|split; [|exact PW]]]]]].
        + rewrite Ei. change (g0 :: M ++ [gl]) with ((g0 :: M) ++ [gl]).
          rewrite nth_map_gsum. rewrite (map_app _ (g0 :: M) [gl]).
          change (map gsum (g0 :: M) ++ map gsum [gl]) with ([] ++ gsum g0 :: (map gsum M ++ [gsum gl])).
          rewrite (update_app _ [] (gsum g0)). cbn [app].
          replace (length (g0 :: M)) with (length ((gsum g0 + gsum gl) :: map gsum M)) by
            (simpl; rewrite map_length; auto).
          change ((gsum g0 + gsum gl) :: map gsum M ++ [gsum gl]) with
            (((gsum g0 + gsum gl) :: map gsum M) ++ gsum gl :: []).
          rewrite delete_app, app_nil_r. simpl. rewrite gsum_app. f_equal. lia.
        + simpl concat in *. rewrite concat_app in I1. simpl in I1. rewrite app_nil_r in I1.
          rewrite app_assoc in I1. apply rotation_step in I1. rewrite <- app_assoc. auto.
        + constructor; auto. destruct gl; [congruence|discriminate].
        + constructor; auto. apply linked_app; auto.
        + simpl. rewrite app_length. simpl. lia.
        + rewrite Eds, Ei. replace (length (g0 :: M)) with (length (chain w (g0 :: M) gl)) by apply chain_length.
          rewrite delete_app, app_nil_r. cbn [hd].
          rewrite (chain_first w ((gl ++ g0) :: M) (gl ++ g0) gl) by (apply hd_app_ne; auto).
          destruct M as [|m M].
          * simpl. rewrite gap_app_l; auto.
          * rewrite !chain_cons2. rewrite gap_app_l; auto.
      - (* i with i + 1 *)
        assert (Hi2 : (S i < length gs)%nat) by lia.
        destruct (nth_error gs i) as [g|] eqn:Eg; [|apply nth_error_None in Eg; lia].
        destruct (nth_split_two _ _ _ _ Eg) as [A [B' [Egs EA]]].
        destruct B' as [|h B]; [rewrite Egs, app_length in Hi2; simpl in Hi2; lia|].
        subst gs. exists (A ++ (g ++ h) :: B).
        apply Forall_app in I2. destruct I2 as [NA N1]. inversion N1 as [|? ? Ng N2]; subst.
        inversion N2 as [|? ? Nh NB]; subst.
        apply Forall_app in I3. destruct I3 as [LA L1]. inversion L1 as [|? ? Lg L2]; subst.
        inversion L2 as [|? ? Lh LB]; subst.
        set (f := hd [] (A ++ g :: h :: B)) in *.
        destruct (chain_merge w A g h B f Ng Nh) as [d1 [d2 [E1 [E2 E3]]]].
        assert (Hg : group_gap w g h < close).
        { assert (Q : nth_error ds i = Some (group_gap w g h)).
          { unfold ds. rewrite E1. rewrite nth_error_app2; [|lia].
            rewrite E2, EA, Nat.sub_diag. reflexivity. }
          rewrite Hm1 in Q. inversion Q. lia. }
        pose proof (place_mid w A g h B pos Ng Nh Ipl Ism) as PW. rewrite EA in PW.
        split; [|split; [|split; [|split; [|split; [|split; [|exact PW]]]]]].
        + rewrite <- EA. rewrite nth_map_gsum.
          replace (A ++ g :: h :: B) with ((A ++ [g]) ++ h :: B) by (rewrite <- app_assoc; auto).
          rewrite (map_app _ (A ++ [g]) (h :: B)). cbn [map].
          replace (S (length A)) with (length (map gsum (A ++ [g]))) by
            (rewrite map_length, app_length; simpl; lia).
          rewrite update_app. rewrite (map_app _ A [g]). cbn [map]. rewrite <- app_assoc. cbn [app].
          replace (length A) with (length (map gsum A)) by apply map_length.
          rewrite delete_app. rewrite map_app. cbn [map]. rewrite gsum_app. f_equal. f_equal. lia.
        + replace (concat (A ++ (g ++ h) :: B)) with (concat (A ++ g :: h :: B)); auto.
          rewrite !concat_app. simpl. rewrite !app_assoc. auto.
        + apply Forall_app. split; auto. constructor; auto. destruct g; [congruence|discriminate].
        + apply Forall_app. split; auto. constructor; auto. apply linked_app; auto.
        + rewrite !app_length. simpl. lia.
        + unfold ds. rewrite E1, <- EA, <- E2. rewrite delete_app. rewrite <- E3.
          apply chain_first. unfold f. destruct A; auto. simpl. symmetry. apply hd_app_ne. auto. }
    destruct Step as [gs2 [C1 [C2 [C3 [C4 [C5 [C6 [C7 C8]]]]]]]].
    rewrite <- C1.
    match type of C7 with Forall2 _ _ ?x => set (pos2 := x) in * end.
    assert (Lp : length pos2 = length gs2) by (symmetry; eapply Forall2_length; exact C7).
    destruct (Nat.ltb_spec (length pos2) 2) as [Hl|Hl].
    + exists gs2, pos2. repeat (split; auto); lia.
    + rewrite C6.
      assert (Hpos2 : Forall (fun d => 0 < d) (chain w gs2 (hd [] gs2))).
      { rewrite <- C6. apply Forall_forall. intros d Hd. rewrite Forall_forall in Hpos. apply Hpos.
        apply in_delete in Hd. auto. }
      assert (Hb : forallb (fun d => 0 <? d) (chain w gs2 (hd [] gs2)) = true).
      { apply forallb_forall. intros d Hd. rewrite Forall_forall in Hpos2. apply Z.ltb_lt. auto. }
      rewrite Hb.
      destruct (IH w close s gs2 (map gsum gs2) pos2 (np_delete maxpos i) (np_delete minpos i))
        as [gs' [pos' [R1 [R2 [Rp [R3 [R4 [R5 [R6 R7]]]]]]]]]; try lia; auto.
      { constructor; auto; try (rewrite delete_length; lia). rewrite Hd2. auto. }
      exists gs', pos'. repeat (split; auto); lia.
  - exists gs, pos. subst colden. repeat (split; auto); try lia.
    right. apply separated_chain. apply Forall_forall. intros d Hd. specialize (Hm2 d Hd). lia.
Qed.

(** ** Sorting *)

Lemma insert_comp_perm : forall c l, Permutation (insert_comp c l) (c :: l).
Proof.
  intros c l; induction l as [|d l IH]; simpl; auto. destruct (fst c <=? fst d); auto.
  eapply perm_trans; [apply perm_skip, IH|]. apply perm_swap.
Qed.

Lemma sort_comps_perm : forall l, Permutation (sort_comps l) l.
Proof.
  intros l; induction l as [|c l IH]; simpl; auto.
  eapply perm_trans; [apply insert_comp_perm|]. auto.
Qed.

Lemma insert_comp_sorted : forall c l, StronglySorted (fun a b => fst a <= fst b) l ->
  StronglySorted (fun a b => fst a <= fst b) (insert_comp c l).
Proof.
  intros c l; induction l as [|d l IH]; intros H; simpl; [repeat constructor|].
  inversion H as [|? ? H1 H2]; subst. destruct (Z.leb_spec (fst c) (fst d)).
  - constructor; auto. constructor; auto. rewrite Forall_forall in *. intros x Hx. specialize (H2 x Hx). lia.
  - constructor; auto. rewrite Forall_forall in *. intros x Hx.
    apply (Permutation_in _ (insert_comp_perm c l)) in Hx. destruct Hx as [<-|Hx]; [lia|auto].
Qed.

Lemma sort_comps_sorted : forall l, StronglySorted (fun a b => fst a <= fst b) (sort_comps l).
Proof. intros l; induction l; simpl; [constructor|]. apply insert_comp_sorted. auto. Qed.

Lemma sorted_strict : forall l, StronglySorted (fun a b => fst a <= fst b) l -> NoDup (map (@fst Z Z) l) ->
  StronglySorted (fun a b => fst a < fst b) l.
Proof.
  intros l; induction l as [|c l IH]; intros H Hn; constructor; simpl in Hn;
    inversion H as [|? ? H1 H2]; inversion Hn as [|? ? N1 N2]; subst; auto.
  rewrite Forall_forall in *. intros x Hx. specialize (H2 x Hx).
  assert (fst c <> fst x) by (intros E; apply N1; rewrite E; apply in_map; auto). lia.
Qed.

Lemma init_gap : forall w (s : list (Z * Z)) f,
  s <> [] -> StronglySorted (fun a b => fst a < fst b) s -> (forall c, In c s -> 0 <= fst c < w) ->
  0 <= fst f < w -> (forall c, In c s -> fst f < fst c) ->
  subtract (map fst (tl s) ++ [fst f]) (update (map fst s) (length s - 1) (fun p => p - w)) =
  chain w (map (fun c => [c]) s) [f] /\
  Forall (fun d => 0 < d) (chain w (map (fun c => [c]) s) [f]).
Proof.
  intros w s f; induction s as [|c s IH]; intros Hne Hs Hr Hf Hlt; [congruence|].
  pose proof (Hr c (or_introl eq_refl)) as Hc. pose proof (Hlt c (or_introl eq_refl)) as Hfc.
  destruct s as [|d s].
  - simpl. unfold group_gap, ahead. simpl.
    assert (E : (fst f - fst c) mod w = fst f - fst c + w).
    { rewrite <- (Z.mod_add _ 1) by lia. rewrite Z.mod_small; lia. }
    rewrite E. split; [change ([fst f - (fst c - w)] = [fst f - fst c + w]); apply (f_equal (fun z => [z])); lia|]. constructor; auto. lia.
  - inversion Hs as [|? ? H1 H2]; subst. destruct IH as [I1 I2]; auto; try discriminate.
    { intros x Hx. apply Hr. right; auto. } { intros x Hx. apply Hlt. right; auto. }
    assert (Hd : fst c < fst d) by (inversion H2; auto).
    pose proof (Hr d (or_intror (or_introl eq_refl))) as Hdr.
    assert (E : group_gap w [c] [d] = fst d - fst c).
    { unfold group_gap, ahead. simpl. rewrite Z.mod_small; lia. }
    change (map (fun c => [c]) (c :: d :: s)) with ([c] :: [d] :: map (fun c : Z * Z => [c]) s).
    rewrite chain_cons2, E. cbn [tl map app length] in *.
    replace (S (S (length s)) - 1)%nat with (S (S (length s) - 1)) by lia.
    change (update (fst c :: fst d :: map fst s) (S (S (length s) - 1)) (fun p => p - w)) with
      (fst c :: update (fst d :: map fst s) (S (length s) - 1) (fun p => p - w)).
    rewrite subtract_cons, I1. split; auto. constructor; auto. lia.
Qed.

Lemma concat_singletons : forall A (l : list A), concat (map (fun c => [c]) l) = l.
Proof. intros A l. induction l; simpl; congruence. Qed.

Lemma chain_first' : forall w gs f f', hd (0, 0) f = hd (0, 0) f' -> chain w gs f = chain w gs f'.
Proof. exact chain_first. Qed.

Lemma C41_groups_aux : forall w close comps,
  (2 <= length comps)%nat -> NoDup (map fst comps) -> (forall c, In c comps -> 0 <= fst c < w) ->
  exists s groups pos,
    Permutation s comps /\ StronglySorted (fun a b => fst a < fst b) s /\
    get_systems w close comps = Systems (map (fun g => total (map snd g)) groups) pos /\
    length pos = length groups /\ Forall2 (placed w) groups pos /\
    (exists l1 l2, s = l1 ++ l2 /\ concat groups = l2 ++ l1) /\
    Forall (fun g => g <> []) groups /\ Forall (linked w close) groups /\
    (length groups = 1%nat \/ separated w close groups (hd [] groups)).
Proof.
  intros w close comps H2 Hnd Hr. unfold get_systems.
  pose proof (sort_comps_perm comps) as P. set (s := sort_comps comps) in *.
  assert (Ls : length s = length comps) by (apply Permutation_length; auto).
  assert (Hs : StronglySorted (fun a b => fst a < fst b) s).
  { apply sorted_strict; [apply sort_comps_sorted|]. eapply Permutation_NoDup; [|exact Hnd].
    apply Permutation_map. apply Permutation_sym; auto. }
  assert (Hrs : forall c, In c s -> 0 <= fst c < w) by (intros c Hc; apply Hr; eapply Permutation_in; eauto).
  destruct s as [|c0 [|c1 s']] eqn:Es; [simpl in Ls; lia|simpl in Ls; lia|].
  inversion Hs as [|? ? Hs1 Hs2]; subst.
  destruct (init_gap w (c1 :: s') c0) as [G1 G2]; auto; try discriminate.
  { intros c Hc. apply Hrs. right; auto. } { apply Hrs. left; auto. }
  { rewrite Forall_forall in Hs2. auto. }
  assert (E01 : group_gap w [c0] [c1] = fst c1 - fst c0 /\ fst c0 < fst c1).
  { assert (fst c0 < fst c1) by (inversion Hs2; auto).
    pose proof (Hrs c0 (or_introl eq_refl)). pose proof (Hrs c1 (or_intror (or_introl eq_refl))).
    unfold group_gap, ahead. simpl. rewrite Z.mod_small; lia. }
  set (full := c0 :: c1 :: s') in *.
  set (gs := map (fun c : Z * Z => [c]) full).
  assert (Gf : subtract (roll_left (map fst full)) (update (map fst full) (length (map fst full) - 1) (fun p => p - w))
     = chain w gs (hd [] gs) /\ Forall (fun d => 0 < d) (chain w gs (hd [] gs))).
  { unfold gs, full. cbn [map hd roll_left]. rewrite chain_cons2. destruct E01 as [E01 Hlt]. rewrite E01.
    cbn [tl map length] in G1, G2. cbn [length map].
    replace (S (S (length (map fst s'))) - 1)%nat with (S (S (length s') - 1)) by (rewrite map_length; lia).
    change (update (fst c0 :: fst c1 :: map fst s') (S (S (length s') - 1)) (fun p => p - w)) with
      (fst c0 :: update (fst c1 :: map fst s') (S (length s') - 1) (fun p => p - w)).
    cbn [app]. rewrite subtract_cons. rewrite G1. split; auto. constructor; auto. lia. }
  destruct Gf as [Gf1 Gf2]. rewrite Gf1.
  assert (Hb : forallb (fun d => 0 <? d) (chain w gs (hd [] gs)) = true).
  { apply forallb_forall. intros d Hd. rewrite Forall_forall in Gf2. apply Z.ltb_lt. auto. }
  rewrite Hb.
  destruct (loop_spec (length full) w close full gs (map snd full) (map inject_Z (map fst full))
     (update (map fst full) (length (map fst full) - 1) (fun p => p - w)) (roll_left (map fst full)))
    as [gs' [pos' [R1 [R2 [Rp [R3 [R4 [R5 [R6 R7]]]]]]]]]; auto.
  - constructor; auto.
    + exists full, []. rewrite app_nil_r. unfold gs. rewrite concat_singletons. auto.
    + apply Forall_forall. intros g Hg. apply in_map_iff in Hg. destruct Hg as [c [<- _]]. discriminate.
    + apply Forall_forall. intros g Hg. apply in_map_iff in Hg. destruct Hg as [c [<- _]]. simpl. auto.
    + unfold gs. rewrite map_map. apply map_ext. intros c. unfold gsum, total. simpl. lia.
    + unfold gs. rewrite !map_length. auto.
    + unfold gs. rewrite map_map. clear. induction full; simpl; constructor; auto. split; [|split; [|split]].
      * intros c E. injection E as <-. auto.
      * intros; discriminate.
      * intros; discriminate.
      * intros _. simpl. split; apply Qle_refl.
    + left. unfold gs. rewrite concat_singletons. exact Hs.
    + unfold gs. rewrite update_length, !map_length. auto.
    + unfold gs, full. simpl. rewrite app_length, !map_length. simpl. lia.
  - unfold gs. rewrite map_length. simpl. lia.
  - unfold gs. rewrite map_length. auto.
  - exists full, gs', pos'. split; [auto|]. split; [auto|]. split; [auto|]. split; [auto|]. split.
    + apply (placed_all w gs' pos'); auto.
      * pose proof (Hrs c0 (or_introl eq_refl)). lia.
      * intros c Hc. apply Hrs. destruct R3 as [l1 [l2 [E1 E2]]]. rewrite E2 in Hc. fold full. rewrite E1.
        apply in_app_or in Hc. apply in_or_app. tauto.
      * destruct R3 as [l1 [l2 [E1 E2]]].
        apply Permutation_NoDup with (l := map fst full).
        -- apply Permutation_map. rewrite E2, E1. apply Permutation_app_comm.
        -- eapply Permutation_NoDup; [|exact Hnd]. apply Permutation_map. apply Permutation_sym; auto.
    + repeat (split; auto).
Qed.

Lemma total_app : forall a b, total (a ++ b) = total a + total b.
Proof. intros a b. unfold total. induction a; cbn [app fold_right]; lia. Qed.

Lemma total_perm : forall a b, Permutation a b -> total a = total b.
Proof. intros a b H. unfold total. induction H; cbn [fold_right]; lia. Qed.

Lemma total_groups : forall gs, total (map gsum gs) = gsum (concat gs).
Proof. intros gs. induction gs; simpl; auto. rewrite gsum_app. rewrite <- IHgs. reflexivity. Qed.

Lemma C41_conserved_aux : forall w close comps colden pos, (2 <= length comps)%nat ->
  NoDup (map fst comps) -> (forall c, In c comps -> 0 <= fst c < w) ->
  get_systems w close comps = Systems colden pos ->
  total colden = total (map snd comps) /\ (1 <= length colden <= length comps)%nat /\
  length pos = length colden.
Proof.
  intros w close comps colden pos H2 Hn Hr E.
  destruct (C41_groups_aux w close comps H2 Hn Hr) as (s & gs & p & P & S1 & Es & Lp & _ & (l1 & l2 & E1 & E2) & N & L & Sep).
  rewrite E in Es. inversion Es; subst colden p. clear Es.
  change (fun g : list (Z * Z) => total (map snd g)) with gsum in *.
  assert (Pc : Permutation (concat gs) comps).
  { rewrite E2. eapply perm_trans; [apply Permutation_app_comm|]. rewrite <- E1. auto. }
  rewrite map_length. split; [|split; auto].
  - rewrite total_groups. unfold gsum. apply total_perm. apply Permutation_map. auto.
  - apply Permutation_length in Pc.
    assert (B : (length gs <= length (concat gs))%nat).
    { clear - N. induction gs as [|g gs IH]; simpl; auto. inversion N; subst. rewrite app_length.
      specialize (IH H2). destruct g; [congruence|]. simpl. lia. }
    destruct gs; [|simpl in *; lia]. simpl in Pc. lia.
Qed.

Lemma C41_single_aux : forall w close c, 0 < w ->
  get_systems w close [c] =
    if w <? close then Systems [] [] else Systems [snd c] [inject_Z (fst c)].
Proof.
  intros w close [p n] Hw. unfold get_systems. cbn [sort_comps fold_right insert_comp map length roll_left fst snd app].
  change (update [p] (1 - 1) (fun p => p - w)) with [p - w].
  change (subtract [p] [p - w]) with [p - (p - w)].
  replace (p - (p - w)) with w by lia. cbn [forallb].
  destruct (Z.ltb_spec 0 w); [|lia]. cbn [andb]. cbn [merge_loop].
  change (subtract [p] [p - w]) with [p - (p - w)].
  replace (p - (p - w)) with w by lia. cbn [minimum fold_left]. destruct (w <? close); auto.
Qed.
