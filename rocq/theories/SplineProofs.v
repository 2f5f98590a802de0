(** Lemmas for the spline fit. *)
From Coq Require Import ZArith List Reals Bool Lra Lia Permutation Sorted Psatz.
From Verif Require Import SplineModel SplineSpec.
Import ListNotations.
Local Open Scope R_scope.

(** ** Sorting *)
Lemma insert_perm : forall x l, Permutation (insert x l) (x :: l).
Proof.
  intros x. induction l as [|y l IH]; cbn [insert]; [apply Permutation_refl|].
  destruct (Z.leb x y); [apply Permutation_refl|].
  eapply perm_trans; [apply perm_skip; exact IH|apply perm_swap].
Qed.

Lemma sort_perm : forall l, Permutation (sort l) l.
Proof.
  induction l as [|x l IH]; [apply Permutation_refl|]. unfold sort in *. cbn [fold_right].
  eapply perm_trans; [apply insert_perm|apply perm_skip; exact IH].
Qed.

Lemma insert_sorted : forall x l, StronglySorted Z.le l -> StronglySorted Z.le (insert x l).
Proof.
  intros x l. induction l as [|y l IH]; intros H; cbn [insert].
  - constructor; constructor.
  - inversion H as [|? ? Hs Hf]; subst. destruct (Z.leb_spec x y).
    + constructor; [exact H|]. constructor; [assumption|]. eapply Forall_impl; [|exact Hf]. intros; cbv beta in *; lia.
    + constructor; [apply IH; exact Hs|]. eapply Permutation_Forall; [apply Permutation_sym, insert_perm|].
      constructor; [lia|exact Hf].
Qed.

Lemma sort_sorted : forall l, StronglySorted Z.le (sort l).
Proof. induction l as [|x l IH]; [constructor|]. unfold sort in *. cbn [fold_right]. apply insert_sorted. exact IH. Qed.

Lemma sorted_unique : forall l l', StronglySorted Z.le l -> StronglySorted Z.le l' -> Permutation l l' -> l = l'.
Proof.
  induction l as [|x l IH]; intros l' Hs Hs' P.
  - apply Permutation_nil in P. congruence.
  - destruct l' as [|y l']; [apply Permutation_sym, Permutation_nil in P; discriminate|].
    inversion Hs as [|? ? A B]; subst. inversion Hs' as [|? ? A' B']; subst.
    assert (E : x = y).
    { assert (I : In x (y :: l')) by (eapply Permutation_in; [exact P|left; reflexivity]).
      assert (I' : In y (x :: l)) by (eapply Permutation_in; [apply Permutation_sym; exact P|left; reflexivity]).
      rewrite Forall_forall in B, B'. destruct I as [|I]; [congruence|]. destruct I' as [|I']; [congruence|].
      specialize (B y I'). specialize (B' x I). lia. }
    subst y. f_equal. apply IH; [assumption..|]. eapply Permutation_cons_inv. exact P.
Qed.

(** ** Increasing lists *)
Fixpoint rising (l : list Z) : Prop := match l with a :: ((b :: _) as l') => (a < b)%Z /\ rising l' | _ => True end.

Lemma increasing_rising : forall l, increasing l = true <-> rising l.
Proof.
  induction l as [|a l IH]; [simpl; tauto|]. destruct l as [|b l]; [simpl; tauto|].
  change (increasing (a :: b :: l)) with (Z.ltb a b && increasing (b :: l)). rewrite andb_true_iff, IH, Z.ltb_lt. reflexivity.
Qed.

Lemma rising_sorted : forall l, rising l <-> StronglySorted Z.lt l.
Proof.
  induction l as [|a l IH]; [split; [constructor|simpl; tauto]|]. split.
  - intros H. assert (Hl : StronglySorted Z.lt l) by (apply IH; destruct l; [exact I|apply H]).
    constructor; [exact Hl|]. destruct l as [|b l]; [constructor|]. destruct H as [H _].
    constructor; [exact H|]. inversion Hl as [|? ? _ F]; subst. eapply Forall_impl; [|exact F]. intros; cbv beta in *; lia.
  - intros H. inversion H as [|? ? A B]; subst. destruct l as [|b l]; [exact I|]. split; [inversion B; assumption|apply IH; exact A].
Qed.

Lemma rising_app : forall l1 a l2, rising (l1 ++ a :: l2) <-> rising (l1 ++ [a]) /\ rising (a :: l2).
Proof.
  induction l1 as [|x l1 IH]; intros a l2; [simpl; tauto|]. destruct l1 as [|y l1].
  - cbn [app]. simpl. tauto.
  - specialize (IH a l2). cbn [app] in *. change (rising (x :: y :: l1 ++ a :: l2)) with ((x < y)%Z /\ rising (y :: l1 ++ a :: l2)).
    change (rising (x :: y :: l1 ++ [a])) with ((x < y)%Z /\ rising (y :: l1 ++ [a])). tauto.
Qed.

Lemma knots_breaks : forall n l, (2 <= n)%Z -> (knots_ok n l = true <-> breaks n l).
Proof.
  intros n l Hn. unfold knots_ok, breaks. rewrite increasing_rising, rising_sorted. split.
  - intros H. inversion H as [|? ? A B]; subst. clear H. induction l as [|x l IH].
    + split; constructor.
    + cbn [app] in A, B. inversion A as [|? ? A1 A2]; subst. inversion B as [|? ? B1 B2]; subst.
      destruct (IH A1 B2) as [H1 H2]. apply Forall_app in A2. destruct A2 as [A2 A3]. inversion A3; subst.
      split; constructor; try assumption. lia.
  - intros [H1 H2]. constructor.
    + induction l as [|x l IH]; [repeat constructor|]. inversion H1; subst. inversion H2; subst. cbn [app]. constructor; [apply IH; assumption|].
      apply Forall_app. split; [assumption|]. constructor; [lia|constructor].
    + apply Forall_app. split; [eapply Forall_impl; [|exact H2]; intros; cbv beta in *; lia|]. constructor; [lia|constructor].
Qed.

(** ** The middles *)
Fixpoint weave (l : list Z) : list Z :=
  match l with a :: ((b :: _) as l') => a :: ((a + b) / 2)%Z :: weave l' | _ => l end.

Fixpoint climbing (l : list Z) : Prop := match l with a :: ((b :: _) as l') => (a <= b)%Z /\ climbing l' | _ => True end.

Lemma rising_climbing : forall l, rising l -> climbing l.
Proof. induction l as [|a l IH]; [trivial|]. destruct l as [|b l]; [trivial|]. intros [H1 H2]. split; [lia|apply IH; exact H2]. Qed.

Lemma weave_perm : forall l, Permutation (weave l) (l ++ map (fun p => (fst p + snd p) / 2)%Z (pairs l)).
Proof.
  induction l as [|a l IH]; [apply Permutation_refl|]. destruct l as [|b l]; [apply Permutation_refl|].
  change (weave (a :: b :: l)) with (a :: ((a + b) / 2)%Z :: weave (b :: l)).
  change (pairs (a :: b :: l)) with ((a, b) :: pairs (b :: l)).
  cbn [map fst snd]. cbn [app]. apply perm_skip.
  eapply perm_trans; [apply perm_skip; exact IH|]. cbn [app].
  apply (Permutation_middle (b :: l)).
Qed.

Lemma half_between : forall a b, (a <= b)%Z -> (a <= (a + b) / 2 <= b)%Z.
Proof. intros a b H. split; [apply Z.div_le_lower_bound; lia|]. assert ((a + b) / 2 < b + 1)%Z; [apply Z.div_lt_upper_bound; lia|lia]. Qed.

Lemma weave_sorted : forall l, climbing l -> StronglySorted Z.le (weave l) /\ Forall (fun x => (hd 0 l <= x)%Z) (weave l).
Proof.
  induction l as [|a l IH]; intros H; [split; constructor|]. destruct l as [|b l].
  - split; [repeat constructor|]. constructor; [simpl; lia|constructor].
  - destruct H as [H1 H2]. destruct (IH H2) as [S1 F1].
    change (weave (a :: b :: l)) with (a :: ((a + b) / 2)%Z :: weave (b :: l)). cbn [hd] in *.
    destruct (half_between a b H1) as [M1 M2].
    assert (F2 : Forall (fun x => ((a + b) / 2 <= x)%Z) (weave (b :: l))) by (eapply Forall_impl; [|exact F1]; intros; cbv beta in *; lia).
    assert (F3 : Forall (fun x => (a <= x)%Z) (weave (b :: l))) by (eapply Forall_impl; [|exact F1]; intros; cbv beta in *; lia).
    split.
    + constructor; [constructor; assumption|]. constructor; assumption.
    + constructor; [lia|]. constructor; assumption.
Qed.

Lemma next_weave : forall n l, climbing (all_inds n l) -> next_inds n l = removelast (tl (weave (all_inds n l))).
Proof.
  intros n l H. unfold next_inds. f_equal. f_equal. apply sorted_unique.
  - apply sort_sorted.
  - apply weave_sorted. exact H.
  - eapply perm_trans; [apply sort_perm|]. apply Permutation_sym, weave_perm.
Qed.

Lemma weave_nth : forall l i a b, nth_error (pairs l) i = Some (a, b) ->
  nth_error (weave l) (2 * i) = Some a /\ nth_error (weave l) (2 * i + 1) = Some ((a + b) / 2)%Z /\ (2 * i + 2 < length (weave l))%nat.
Proof.
  induction l as [|x l IH]; intros i a b H; [destruct i; discriminate|]. destruct l as [|y l]; [destruct i; discriminate|].
  change (pairs (x :: y :: l)) with ((x, y) :: pairs (y :: l)) in H.
  change (weave (x :: y :: l)) with (x :: ((x + y) / 2)%Z :: weave (y :: l)).
  destruct i as [|i].
  - injection H as <- <-. split; [reflexivity|]. split; [reflexivity|]. destruct l; simpl; lia.
  - cbn [nth_error] in H. destruct (IH i a b H) as (H1 & H2 & H3).
    replace (2 * S i)%nat with (S (S (2 * i))) by lia. replace (S (S (2 * i)) + 1)%nat with (S (S (2 * i + 1))) by lia.
    cbn [nth_error length]. split; [exact H1|]. split; [exact H2|lia].
Qed.

Lemma nth_removelast : forall (l : list Z) i d, (S i < length l)%nat -> nth i (removelast l) d = nth i l d.
Proof.
  induction l as [|x l IH]; intros i d H; [cbn in H; lia|]. destruct l as [|y l]; [cbn in H; lia|].
  change (removelast (x :: y :: l)) with (x :: removelast (y :: l)). destruct i as [|i]; [reflexivity|].
  cbn [nth]. apply IH. cbn [length] in *. lia.
Qed.

Lemma next_nth : forall n l i a b, climbing (all_inds n l) -> nth_error (pairs (all_inds n l)) i = Some (a, b) ->
  nth (2 * i) (next_inds n l) 0%Z = ((a + b) / 2)%Z.
Proof.
  intros n l i a b H P. rewrite next_weave by exact H. destruct (weave_nth _ _ _ _ P) as (H1 & H2 & H3).
  destruct (weave (all_inds n l)) as [|w ws] eqn:E; [cbn in H3; lia|]. cbn [tl length] in *.
  rewrite nth_removelast by lia. apply nth_error_nth.
  replace (2 * i + 1)%nat with (S (2 * i)) in H2 by lia. exact H2.
Qed.

(** ** Segments *)
Lemma pairs_neighbours : forall l a b, In (a, b) (pairs l) <-> neighbours l a b.
Proof.
  intros l a b. split.
  - induction l as [|x l IH]; [intros []|]. destruct l as [|y l]; [intros []|].
    change (pairs (x :: y :: l)) with ((x, y) :: pairs (y :: l)). intros [E|H].
    + injection E as <- <-. exists [], l. reflexivity.
    + destruct (IH H) as (l1 & l2 & E). exists (x :: l1), l2. rewrite E. reflexivity.
  - intros (l1 & l2 & ->). induction l1 as [|x l1 IH]; [left; reflexivity|].
    destruct l1 as [|y l1]; [right; exact IH|]. cbn [app] in *.
    change (pairs (x :: y :: l1 ++ a :: b :: l2)) with ((x, y) :: pairs (y :: l1 ++ a :: b :: l2)). right. exact IH.
Qed.

Lemma rising_pairs : forall l, rising l <-> Forall (fun p => (fst p < snd p)%Z) (pairs l).
Proof.
  induction l as [|a l IH]; [split; [constructor|simpl; tauto]|]. destruct l as [|b l]; [split; [constructor|simpl; tauto]|].
  change (pairs (a :: b :: l)) with ((a, b) :: pairs (b :: l)).
  change (rising (a :: b :: l)) with ((a < b)%Z /\ rising (b :: l)). rewrite IH. split.
  - intros [H1 H2]. constructor; assumption.
  - intros H. inversion H; subst. split; assumption.
Qed.

Lemma all_rising : forall n l, (2 <= n)%Z -> breaks n l -> rising (all_inds n l).
Proof.
  intros n l Hn H. assert (K := proj2 (knots_breaks (n + 1) l ltac:(lia))).
  unfold knots_ok, all_inds in *. rewrite <- increasing_rising. replace (n + 1 - 1)%Z with n in K by lia. apply K.
  destruct H as [H1 H2]. split; [exact H1|]. eapply Forall_impl; [|exact H2]. intros; cbv beta in *; lia.
Qed.

(** The middle is strictly inside. *)
Lemma middle_cases : forall a b, middle a b = ((a + b) / 2)%Z \/ (middle a b = (a + b) / 2 + 1 /\ a + b = 2 * ((a + b) / 2) + 1)%Z.
Proof.
  intros a b. unfold middle. destruct (Z.even (a + b)) eqn:E; [left; reflexivity|].
  destruct (Z.even ((a + b) / 2)); [left; reflexivity|]. right. split; [reflexivity|].
  assert (O : Z.odd (a + b) = true) by (rewrite <- Z.negb_even, E; reflexivity).
  rewrite Zodd_mod in O. apply Zeq_bool_eq in O.
  assert (D := Z.div_mod (a + b) 2 ltac:(lia)). lia.
Qed.

(** ** Adding breakpoints *)
Fixpoint splice (f : nat -> Z -> Z -> list Z) (i : nat) (l : list Z) : list Z :=
  match l with a :: ((b :: _) as l') => a :: f i a b ++ splice f (S i) l' | _ => l end.

Definition added (f : nat -> Z -> Z -> list Z) (i : nat) (l : list Z) : list Z :=
  concat (map (fun p => f (fst p) (fst (snd p)) (snd (snd p))) (combine (seq i (length (pairs l))) (pairs l))).

Lemma splice_perm : forall f l i, Permutation (splice f i l) (l ++ added f i l).
Proof.
  intros f. induction l as [|a l IH]; intros i; [apply Permutation_refl|]. destruct l as [|b l]; [apply Permutation_refl|].
  change (splice f i (a :: b :: l)) with (a :: f i a b ++ splice f (S i) (b :: l)).
  unfold added. change (pairs (a :: b :: l)) with ((a, b) :: pairs (b :: l)).
  cbn [length seq combine map fst snd concat]. fold (added f (S i) (b :: l)).
  cbn [app]. apply perm_skip. eapply perm_trans; [apply Permutation_app_head; apply IH|].
  change (b :: l ++ f i a b ++ added f (S i) (b :: l)) with ((b :: l) ++ f i a b ++ added f (S i) (b :: l)).
  rewrite !app_assoc. apply Permutation_app_tail. apply Permutation_app_comm.
Qed.

Definition fine (f : nat -> Z -> Z -> list Z) (i : nat) (l : list Z) : Prop :=
  forall j a b, nth_error (pairs l) j = Some (a, b) -> f (i + j)%nat a b = [] \/ exists m, f (i + j)%nat a b = [m] /\ (a < m < b)%Z.

Lemma fine_tail : forall f i a b l, fine f i (a :: b :: l) -> fine f (S i) (b :: l).
Proof. intros f i a b l H j x y P. replace (S i + j)%nat with (i + S j)%nat by lia. apply H. exact P. Qed.

Lemma splice_head : forall f i a l, exists l', splice f i (a :: l) = a :: l'.
Proof. intros f i a [|b l]; [exists []; reflexivity|]. eexists. reflexivity. Qed.

Lemma splice_rising : forall f l i, rising l -> fine f i l -> rising (splice f i l).
Proof.
  intros f. induction l as [|a l IH]; intros i R F; [exact I|]. destruct l as [|b l]; [exact I|].
  destruct R as [R1 R2]. specialize (IH (S i) R2 (fine_tail _ _ _ _ _ F)).
  change (splice f i (a :: b :: l)) with (a :: f i a b ++ splice f (S i) (b :: l)).
  destruct (splice_head f (S i) b l) as (l' & E). rewrite E in *.
  destruct (F 0%nat a b eq_refl) as [H|(m & H & Hm)]; rewrite Nat.add_0_r in H; rewrite H; cbn [app].
  - split; assumption.
  - split; [lia|]. split; [lia|exact IH].
Qed.

Lemma splice_pairs : forall f l i x y, fine f i l -> In (x, y) (pairs (splice f i l)) ->
  exists j a b, nth_error (pairs l) j = Some (a, b) /\
    ((x = a /\ y = b /\ f (i + j)%nat a b = []) \/ exists m, f (i + j)%nat a b = [m] /\ ((x = a /\ y = m) \/ (x = m /\ y = b))).
Proof.
  intros f. induction l as [|a l IH]; intros i x y F H; [destruct H|]. destruct l as [|b l]; [destruct H|].
  change (splice f i (a :: b :: l)) with (a :: f i a b ++ splice f (S i) (b :: l)) in H.
  assert (Rec : In (x, y) (pairs (splice f (S i) (b :: l))) -> exists j a0 b0, nth_error (pairs (a :: b :: l)) j = Some (a0, b0) /\
    ((x = a0 /\ y = b0 /\ f (i + j)%nat a0 b0 = []) \/ exists m, f (i + j)%nat a0 b0 = [m] /\ ((x = a0 /\ y = m) \/ (x = m /\ y = b0)))).
  { intros H'. destruct (IH (S i) x y (fine_tail _ _ _ _ _ F) H') as (j & a0 & b0 & P & Q).
    exists (S j), a0, b0. split; [exact P|]. replace (i + S j)%nat with (S i + j)%nat by lia. exact Q. }
  destruct (splice_head f (S i) b l) as (l' & E). rewrite E in *.
  destruct (F 0%nat a b eq_refl) as [K|(m & K & Hm)]; assert (K' := K); rewrite Nat.add_0_r in K; rewrite K in H; cbn [app] in H.
  - change (pairs (a :: b :: l')) with ((a, b) :: pairs (b :: l')) in H. destruct H as [H|H]; [|apply Rec; exact H].
    injection H as <- <-. exists 0%nat, a, b. split; [reflexivity|]. left. auto.
  - change (pairs (a :: m :: b :: l')) with ((a, m) :: (m, b) :: pairs (b :: l')) in H. destruct H as [H|[H|H]]; [| |apply Rec; exact H].
    + injection H as <- <-. exists 0%nat, a, b. split; [reflexivity|]. right. exists m. auto.
    + injection H as <- <-. exists 0%nat, a, b. split; [reflexivity|]. right. exists m. auto.
Qed.

Lemma sorted_lt_le : forall l, StronglySorted Z.lt l -> StronglySorted Z.le l.
Proof.
  induction 1 as [|x l H IH F]; constructor; [assumption|]. eapply Forall_impl; [|exact F]. intros; cbv beta in *; lia.
Qed.

(** The next breakpoints, seen with the ends. *)
Lemma all_spliced : forall f n l, (2 <= n)%Z -> breaks n l -> fine f 0 (all_inds n l) ->
  all_inds n (sort (l ++ added f 0 (all_inds n l))) = splice f 0 (all_inds n l).
Proof.
  intros f n l Hn B F. assert (R := all_rising n l Hn B).
  assert (Rs := splice_rising f (all_inds n l) 0 R F).
  assert (P : Permutation (splice f 0 (all_inds n l)) (all_inds n (sort (l ++ added f 0 (all_inds n l))))).
  { eapply perm_trans; [apply splice_perm|]. unfold all_inds. cbn [app]. apply perm_skip. rewrite <- app_assoc. cbn [app].
    eapply perm_trans; [apply Permutation_sym, Permutation_middle|]. eapply perm_trans; [|apply Permutation_app_comm]. cbn [app].
    apply perm_skip. apply Permutation_sym, sort_perm. }
  apply sorted_unique; [|apply sorted_lt_le, rising_sorted; exact Rs|apply Permutation_sym; exact P].
  assert (L : StronglySorted Z.lt (splice f 0 (all_inds n l))) by (apply rising_sorted; exact Rs).
  unfold all_inds at 1. set (s := sort (l ++ added f 0 (all_inds n l))) in *.
  assert (Bd : Forall (fun x => (0 <= x <= n)%Z) s).
  { assert (Bs : Forall (fun x => (0 <= x <= n)%Z) (l ++ added f 0 (all_inds n l))).
    { apply Forall_app. destruct B as [B1 B2]. split; [eapply Forall_impl; [|exact B2]; intros; cbv beta in *; lia|].
      assert (Bp : Forall (fun p => 0 <= fst p /\ snd p <= n)%Z (pairs (all_inds n l))).
      { apply Forall_forall. intros [x y] Hp. apply pairs_neighbours in Hp. destruct Hp as (l1 & l2 & E).
        assert (A : Forall (fun x => (0 <= x <= n)%Z) (all_inds n l)).
        { unfold all_inds. constructor; [lia|]. apply Forall_app. split; [eapply Forall_impl; [|exact B2]; intros; cbv beta in *; lia|].
          constructor; [lia|constructor]. }
        rewrite E in A. apply Forall_app in A. destruct A as [_ A]. inversion A as [|? ? A1 A2]; subst. inversion A2; subst.
        cbn [fst snd]. lia. }
      clear - F Bp. unfold added. apply Forall_concat. apply Forall_forall. intros k Hk. apply in_map_iff in Hk.
      destruct Hk as ((j & (a & b)) & <- & Hc). cbn [fst snd].
      assert (Hj : nth_error (pairs (all_inds n l)) j = Some (a, b)).
      { clear - Hc. apply In_nth_error in Hc. destruct Hc as (q & Hq).
        assert (G : forall (A : Type) (ps : list A) i q j p, nth_error (combine (seq i (length ps)) ps) q = Some (j, p) -> nth_error ps (j - i) = Some p /\ (i <= j)%nat).
        { intros A. induction ps as [|p0 ps IH]; intros i q0 j0 p E; [destruct q0; discriminate|].
          cbn [length seq combine] in E. destruct q0 as [|q0]; cbn [nth_error] in E.
          - injection E as <- <-. rewrite Nat.sub_diag. split; [reflexivity|lia].
          - destruct (IH (S i) q0 j0 p E) as [E1 E2]. replace (j0 - i)%nat with (S (j0 - S i)) by lia. split; [exact E1|lia]. }
        destruct (G _ _ _ _ _ _ Hq) as [G1 _]. rewrite Nat.sub_0_r in G1. exact G1. }
      assert (Hb : (0 <= a /\ b <= n)%Z) by (rewrite Forall_forall in Bp; apply (Bp (a, b)); eapply nth_error_In; exact Hj).
      destruct (F j a b Hj) as [H|(m & H & Hm)]; rewrite Nat.add_0_l in H; rewrite H; [constructor|]. constructor; [lia|constructor]. }
    eapply Permutation_Forall; [apply Permutation_sym, sort_perm|exact Bs]. }
  constructor; [|apply Forall_app; split; [eapply Forall_impl; [|exact Bd]; intros; cbv beta in *; lia|constructor; [lia|constructor]]].
  assert (Ss : StronglySorted Z.le s) by apply sort_sorted. clearbody s. clear - Ss Bd.
  induction s as [|x s IH]; [repeat constructor|]. inversion Ss; subst. inversion Bd; subst. cbn [app]. constructor; [apply IH; assumption|].
  apply Forall_app. split; [assumption|]. constructor; [lia|constructor].
Qed.
