(** Proofs about regions and halo selection. *)
From Coq Require Import ZArith List Bool Lia Sorting.Sorted Arith.
From Verif Require Import RegionModel RegionSpec.
Import ListNotations.

(** ** A direct recursive description *)

Fixpoint runs_f (k : nat) (c : list bool) : list (nat * nat) :=
  match c with
  | [] => []
  | true :: t => runs_t k (S k) t
  | false :: t => runs_f (S k) t
  end
with runs_t (s k : nat) (c : list bool) : list (nat * nat) :=
  match c with
  | [] => [(s, k)]
  | true :: t => runs_t s (S k) t
  | false :: t => (s, k) :: runs_f (S k) t
  end.

Fixpoint changes (prev : bool) (k : nat) (c : list bool) : list nat :=
  match c with
  | [] => if prev then [k] else []
  | b :: t => if xorb prev b then k :: changes b (S k) t else changes b (S k) t
  end.

Lemma changes_runs : forall c k,
  reshape2 (changes false k c) = Some (runs_f k c) /\
  (forall s, reshape2 (s :: changes true k c) = Some (runs_t s k c)).
Proof.
  induction c as [|b c IH]; intros k; simpl.
  - split; auto.
  - destruct (IH (S k)) as [I1 I2]. destruct b; simpl.
    + split; [apply (I2 k)|]. intros s. apply (I2 s).
    + split; [exact I1|]. intros s. rewrite I1. auto.
Qed.

Lemma last_cons : forall A (l : list A) a b d, last (a :: b :: l) d = last (b :: l) d.
Proof. reflexivity. Qed.

Lemma changes_idx : forall c b k,
  map S (nonzero k (bool_diff (b :: c))) ++ (if last (b :: c) false then [k + length (b :: c)] else []) =
  changes b (S k) c.
Proof.
  induction c as [|x c IH]; intros b k.
  - simpl. destruct b; auto. f_equal. lia.
  - rewrite last_cons. cbn [bool_diff].
    specialize (IH x (S k)).
    replace (k + length (b :: x :: c)) with (S k + length (x :: c)) by (simpl; lia).
    cbn [changes]. rewrite <- IH. destruct (xorb b x); reflexivity.
Qed.

Lemma contiguous_runs : forall c, c <> [] -> contiguous_regions c = Some (runs_f 0 c).
Proof.
  intros [|b c] H; [congruence|]. unfold contiguous_regions.
  pose proof (changes_idx c b 0) as E. change (0 + length (b :: c)) with (length (b :: c)) in E.
  destruct (changes_runs c 1) as [R1 R2].
  destruct b.
  - replace (if last (true :: c) false then (0 :: map S (nonzero 0 (bool_diff (true :: c)))) ++ [length (true :: c)]
      else 0 :: map S (nonzero 0 (bool_diff (true :: c)))) with (0 :: changes true 1 c).
    + apply (R2 0).
    + rewrite <- E. destruct (last (true :: c) false); simpl; auto. rewrite app_nil_r. auto.
  - replace (if last (false :: c) false then map S (nonzero 0 (bool_diff (false :: c))) ++ [length (false :: c)]
      else map S (nonzero 0 (bool_diff (false :: c)))) with (changes false 1 c).
    + apply R1.
    + rewrite <- E. destruct (last (false :: c) false); auto. rewrite app_nil_r. auto.
Qed.

(** ** The runs are the maximal runs *)

Lemma nth_error_mid : forall A (pre : list A) x post, nth_error (pre ++ x :: post) (length pre) = Some x.
Proof. intros. rewrite nth_error_app2 by lia. rewrite Nat.sub_diag. auto. Qed.

Lemma runs_spec : forall c pre,
  let full := pre ++ c in let k := length pre in
  ((k = 0 \/ nth_error full (k - 1) = Some false) ->
   forall a b, In (a, b) (runs_f k c) <-> maximal_run full a b /\ k <= a) /\
  (forall s, s < k -> (forall i, s <= i < k -> nth_error full i = Some true) ->
     (s = 0 \/ nth_error full (s - 1) = Some false) ->
   forall a b, In (a, b) (runs_t s k c) <-> maximal_run full a b /\ s <= a).
Proof.
  induction c as [|x c IH]; intros pre full k.
  - assert (Hlen : length full = k) by (unfold full, k; rewrite app_nil_r; auto). split.
    + intros _ a b. simpl. split; [intros []|]. intros [[H _] H']. lia.
    + intros s Hs Hall Hb a b. simpl. split.
      * intros [E|[]]. inversion E; subst. split; [|lia].
        repeat split; auto; try lia.
      * intros [[H1 [H2 [H3 H4]]] H5]. left.
        destruct (Nat.eq_dec a s) as [->|Hne].
        { f_equal. destruct H4 as [H4|H4]; [lia|]. destruct (Nat.eq_dec b k) as [->|Hb']; [auto|].
          specialize (Hall b ltac:(lia)). congruence. }
        { exfalso. destruct H3 as [H3|H3]; [lia|]. specialize (Hall (a - 1) ltac:(lia)). congruence. }
  - assert (Hx : nth_error full k = Some x) by apply nth_error_mid.
    assert (Hlen : k < length full) by (apply nth_error_Some; congruence).
    destruct (IH (pre ++ [x])) as [I1 I2]. rewrite app_length in I1, I2.
    rewrite <- app_assoc in I1, I2. change ([x] ++ c) with (x :: c) in I1, I2. fold full in I1, I2.
    replace (length pre + length [x]) with (S k) in I1, I2 by (unfold k; simpl; lia).
    replace (S k - 1) with k in I1 by lia.
    destruct x; simpl.
    + split.
      * intros Hk a b. apply (I2 k); auto; try lia.
        intros i Hi. replace i with k by lia. auto.
      * intros s Hs Hall Hb a b. apply I2; auto; try lia.
        intros i Hi. destruct (Nat.eq_dec i k) as [->|]; auto. apply Hall. lia.
    + split.
      * intros Hk a b. rewrite (I1 (or_intror Hx) a b). split; intros [H H'].
        { split; auto. lia. }
        { split; auto. destruct H as [H1 [H2 _]].
          destruct (Nat.eq_dec a k) as [->|]; [|lia].
          specialize (H2 k ltac:(lia)). congruence. }
      * intros s Hs Hall Hb a b. rewrite (I1 (or_intror Hx) a b). split.
        { intros [E|[H H']].
          - inversion E; subst a b. split; [|lia]. unfold maximal_run. repeat split; auto; lia.
          - split; auto. lia. }
        { intros [H H']. destruct (le_lt_dec (S k) a) as [Ha|Ha]; [right; auto|]. left.
          destruct H as [H1 [H2 [H3 H4]]].
          assert (Hak : a <> k) by (intros ->; specialize (H2 k ltac:(lia)); congruence).
          destruct (Nat.eq_dec a s) as [->|Hne].
          - f_equal. destruct (lt_eq_lt_dec b k) as [[Hlt|Heq]|Hgt]; auto.
            + destruct H4 as [H4|H4]; [lia|]. specialize (Hall b ltac:(lia)). congruence.
            + specialize (H2 k ltac:(lia)). congruence.
          - destruct H3 as [H3|H3]; [lia|]. specialize (Hall (a - 1) ltac:(lia)). congruence. }
Qed.

Lemma contiguous_exact : forall c, c <> [] ->
  exists regs, contiguous_regions c = Some regs /\
    forall a b, In (a, b) regs <-> maximal_run c a b.
Proof.
  intros c H. exists (runs_f 0 c). split; [apply contiguous_runs; auto|].
  intros a b. destruct (runs_spec c []) as [I _]. simpl in I. rewrite (I (or_introl eq_refl)).
  split; [intros []; auto|]. intros; split; auto; lia.
Qed.

Definition before (r r' : nat * nat) : Prop := snd r < fst r'.

Lemma runs_sorted : forall c k,
  (StronglySorted before (runs_f k c) /\ Forall (fun r => k <= fst r) (runs_f k c)) /\
  (forall s, s < k -> exists b rest, runs_t s k c = (s, b) :: rest /\ k <= b /\
     StronglySorted before rest /\ Forall (fun r => b < fst r) rest).
Proof.
  induction c as [|x c IH]; intros k; simpl.
  - split; [split; constructor|]. intros s Hs. exists k, []. repeat split; auto; constructor.
  - destruct (IH (S k)) as [[I1 I2] I3]. destruct x.
    + split.
      * destruct (I3 k ltac:(lia)) as [b [rest [-> [Hb [S1 S2]]]]]. split.
        { constructor; auto. }
        { constructor; simpl; auto. eapply Forall_impl; [|exact S2]. simpl; intros; lia. }
      * intros s Hs. destruct (I3 s ltac:(lia)) as [b [rest [-> [Hb [S1 S2]]]]].
        exists b, rest. repeat split; auto. lia.
    + split.
      * split; auto. eapply Forall_impl; [|exact I2]. simpl; intros; lia.
      * intros s Hs. exists k, (runs_f (S k) c). repeat split; auto.
Qed.

(** ** Combining *)

Fixpoint merge (d : Z) (cur : nat * nat) (rest : list (nat * nat)) : list (nat * nat) :=
  match rest with
  | [] => [cur]
  | r :: rs => if (Z.of_nat (fst r) - Z.of_nat (snd cur) <? d)%Z then merge d (fst cur, snd r) rs
               else cur :: merge d r rs
  end.

Lemma fold_merge : forall d rest cur older,
  rev (fold_left (combine_step d) rest (cur :: older)) = rev older ++ merge d cur rest.
Proof.
  intros d rest; induction rest as [|r rest IH]; intros [a b] older.
  - simpl. auto.
  - cbn [fold_left combine_step merge snd fst].
    destruct (Z.of_nat (fst r) - Z.of_nat b <? d)%Z.
    + rewrite IH. auto.
    + rewrite IH. simpl. rewrite <- app_assoc. auto.
Qed.

Lemma hull_snoc : forall g r, g <> [] -> hull (g ++ [r]) = (fst (hull g), snd r).
Proof.
  intros [|x g] r H; [congruence|]. unfold hull. simpl hd.
  rewrite last_last. reflexivity.
Qed.

Lemma neighbours_snoc : forall A (R : A -> A -> Prop) g r d, neighbours R g -> g <> [] ->
  R (last g d) r -> neighbours R (g ++ [r]).
Proof.
  intros A R g r d Hn Hne Hl l1 x y l2 E.
  destruct (exists_last Hne) as [g' [z ->]]. rewrite last_last in Hl.
  destruct l2 as [|w l2 _] using rev_ind.
  - replace (l1 ++ [x; y]) with ((l1 ++ [x]) ++ [y]) in E by (rewrite <- app_assoc; auto).
    apply app_inj_tail in E. destruct E as [E ->]. apply app_inj_tail in E. destruct E as [_ ->]. auto.
  - replace (l1 ++ x :: y :: l2 ++ [w]) with ((l1 ++ x :: y :: l2) ++ [w]) in E
      by (rewrite <- app_assoc; auto).
    apply app_inj_tail in E. destruct E as [E ->]. eapply Hn; eauto.
Qed.

Lemma neighbours_single : forall A (R : A -> A -> Prop) r, neighbours R [r].
Proof.
  intros A R r l1 x y l2 E. apply (f_equal (@length A)) in E. rewrite app_length in E. simpl in E. lia.
Qed.

Lemma neighbours_cons : forall A (R : A -> A -> Prop) x y l, R x y -> neighbours R (y :: l) ->
  neighbours R (x :: y :: l).
Proof.
  intros A R x y l H Hn [|z l1] a b l2 E; simpl in E; inversion E; subst; auto.
  eapply Hn; eauto.
Qed.

Lemma merge_spec : forall d rest g, g <> [] ->
  neighbours (fun r r' => (gap r r' < d)%Z) g ->
  exists h groups, concat (h :: groups) = g ++ rest /\
    merge d (hull g) rest = map hull (h :: groups) /\
    Forall (fun g => g <> []) (h :: groups) /\
    Forall (neighbours (fun r r' => (gap r r' < d)%Z)) (h :: groups) /\
    neighbours (fun g g' => (d <= gap (last g (0%nat, 0%nat)) (hd (0%nat, 0%nat) g'))%Z) (h :: groups) /\
    hd (0, 0) h = hd (0, 0) g.
Proof.
  intros d rest; induction rest as [|r rest IH]; intros g Hne Hg.
  - exists g, []. simpl. repeat split; auto. apply neighbours_single.
  - cbn [merge]. replace (snd (hull g)) with (snd (last g (0, 0))) by reflexivity.
    destruct (Z.ltb_spec (Z.of_nat (fst r) - Z.of_nat (snd (last g (0, 0)))) d) as [Hlt|Hge].
    + rewrite <- hull_snoc by auto.
      destruct (IH (g ++ [r])) as [h [gs [E1 [E2 [E3 [E4 [E5 E6]]]]]]].
      { destruct g; discriminate. }
      { apply (neighbours_snoc _ _ _ _ (0, 0)); auto. }
      exists h, gs. split; [rewrite E1, <- app_assoc; auto|]. repeat split; auto.
      rewrite E6. destruct g; [congruence|auto].
    + destruct (IH [r]) as [h [gs [E1 [E2 [E3 [E4 [E5 E6]]]]]]].
      { discriminate. } { apply neighbours_single. }
      change (hull [r]) with (fst r, snd r) in E2. rewrite <- surjective_pairing in E2.
      exists g, (h :: gs). split; [cbn [concat] in *; rewrite E1; auto|]. split; [rewrite E2; auto|].
      repeat split; auto. apply neighbours_cons; auto. rewrite E6. simpl. unfold gap. lia.
Qed.

Lemma merged_id : forall d reg, neighbours (fun r r' => (d <= gap r r')%Z) reg -> merged d reg reg.
Proof.
  intros d reg H. exists (map (fun r => [r]) reg).
  split; [|split; [|split; [|split]]].
  - clear H. induction reg; simpl; congruence.
  - clear H. induction reg as [|[a b] reg IH]; simpl; [auto|]. rewrite <- IH. reflexivity.
  - apply Forall_forall. intros g Hg. apply in_map_iff in Hg. destruct Hg as [x [<- _]]. discriminate.
  - apply Forall_forall. intros g Hg. apply in_map_iff in Hg. destruct Hg as [x [<- _]].
    apply neighbours_single.
  - intros l1 g g' l2 E. revert reg H E. induction l1 as [|y l1 IH]; intros reg H E.
    + destruct reg as [|x [|y reg]]; simpl in E; inversion E; subst. simpl.
      apply (H [] x y reg). auto.
    + destruct reg as [|x reg]; simpl in E; inversion E; subst. apply (IH reg); auto.
      intros m1 a b m2 Em. apply (H (x :: m1) a b m2). simpl. congruence.
Qed.

Lemma combine_spec : forall c d, c <> [] -> (0 < d)%Z ->
  exists regs new, contiguous_regions c = Some regs /\ combine_regions c d = Some new /\
    merged d regs new.
Proof.
  intros c d Hc Hd. destruct (contiguous_exact c Hc) as [regs [E _]].
  exists regs. unfold combine_regions. rewrite E.
  destruct regs as [|r0 [|r1 rest]].
  - eexists. split; auto. split; [reflexivity|]. apply merged_id.
    intros l1 x y l2 Ex. destruct l1; discriminate.
  - eexists. split; auto. split; [reflexivity|]. apply merged_id. apply neighbours_single.
  - assert ((0 <? d)%Z = true) as -> by (apply Z.ltb_lt; auto).
    eexists. split; auto. split; [reflexivity|].
    rewrite fold_merge. cbn [rev app].
    destruct (merge_spec d (r1 :: rest) [r0]) as [h [gs [E1 [E2 [E3 [E4 [E5 E6]]]]]]].
    { discriminate. } { apply neighbours_single. }
    change (hull [r0]) with (fst r0, snd r0) in E2. rewrite <- surjective_pairing in E2.
    rewrite E2. exists (h :: gs). auto.
Qed.

Lemma combine_zero : forall c d, c <> [] -> (d <= 0)%Z -> combine_regions c d = contiguous_regions c.
Proof.
  intros c d Hc Hd. unfold combine_regions. destruct (contiguous_regions c) as [[|r [|r' rest]]|]; auto.
  destruct (Z.ltb_spec 0 d); [lia|auto].
Qed.

(** Every true pixel is in a combined region. *)
Lemma run_exists_left : forall c i, nth_error c i = Some true ->
  exists a, a <= i /\ (forall j, a <= j <= i -> nth_error c j = Some true) /\
    (a = 0 \/ nth_error c (a - 1) = Some false).
Proof.
  intros c i; induction i as [|i IH]; intros H.
  - exists 0. split; auto. split; auto. intros j Hj. replace j with 0 by lia. auto.
  - destruct (nth_error c i) as [[|]|] eqn:E.
    + destruct (IH eq_refl) as [a [H1 [H2 H3]]]. exists a. split; [lia|]. split; auto.
      intros j Hj. destruct (Nat.eq_dec j (S i)) as [->|]; auto. apply H2. lia.
    + exists (S i). split; auto. split.
      * intros j Hj. replace j with (S i) by lia. auto.
      * right. simpl. rewrite Nat.sub_0_r. auto.
    + apply nth_error_None in E.
      assert (S i < length c) by (apply nth_error_Some; congruence). lia.
Qed.

Lemma run_exists_right : forall c n i, length c - i <= n -> nth_error c i = Some true ->
  exists b, i < b <= length c /\ (forall j, i <= j < b -> nth_error c j = Some true) /\
    (b = length c \/ nth_error c b = Some false).
Proof.
  intros c n; induction n as [|n IH]; intros i Hn H.
  - assert (i < length c) by (apply nth_error_Some; congruence). lia.
  - assert (Hi : i < length c) by (apply nth_error_Some; congruence).
    destruct (nth_error c (S i)) as [[|]|] eqn:E.
    + destruct (IH (S i) ltac:(lia) E) as [b [H1 [H2 H3]]]. exists b. split; [lia|]. split; auto.
      intros j Hj. destruct (Nat.eq_dec j i) as [->|]; auto. apply H2. lia.
    + exists (S i). split; [lia|]. split; auto. intros j Hj. replace j with i by lia. auto.
    + apply nth_error_None in E. exists (S i). split; [lia|]. split; [|left; lia].
      intros j Hj. replace j with i by lia. auto.
Qed.

Lemma run_exists : forall c i, nth_error c i = Some true -> exists a b, maximal_run c a b /\ a <= i < b.
Proof.
  intros c i H. destruct (run_exists_left c i H) as [a [A1 [A2 A3]]].
  destruct (run_exists_right c (length c) i ltac:(lia) H) as [b [B1 [B2 B3]]].
  exists a, b. split; [|lia]. split; [lia|]. split; auto.
  intros j Hj. destruct (le_lt_dec j i); [apply A2|apply B2]; lia.
Qed.

Lemma sorted_hull : forall g r, StronglySorted before g -> Forall (fun r => fst r < snd r) g -> In r g ->
  fst (hull g) <= fst r /\ snd r <= snd (hull g).
Proof.
  intros g r Hs Hf Hin. unfold hull. simpl. split.
  - destruct g as [|x g]; [destruct Hin|]. simpl. destruct Hin as [<-|Hin]; auto.
    inversion Hs as [|? ? _ Hx]; subst. rewrite Forall_forall in Hx.
    inversion Hf as [|? ? Hf1 _]; subst. specialize (Hx r Hin). unfold before in Hx. lia.
  - destruct (@exists_last _ g ltac:(destruct g; [destruct Hin|discriminate])) as [g' [z ->]].
    rewrite last_last. apply in_app_iff in Hin. destruct Hin as [Hin|[<-|[]]]; auto.
    assert (Hb : before r z).
    { clear Hf. induction g' as [|y g' IH]; [destruct Hin|].
      simpl in Hs. inversion Hs as [|? ? Hs' Hy]; subst. destruct Hin as [<-|Hin]; auto.
      rewrite Forall_forall in Hy. apply Hy. apply in_app_iff. right; left; auto. }
    rewrite Forall_forall in Hf. specialize (Hf z ltac:(apply in_app_iff; right; left; auto)).
    unfold before in Hb. lia.
Qed.

Lemma sorted_sub : forall A (R : A -> A -> Prop) l1 l2 l3, StronglySorted R (l1 ++ l2 ++ l3) -> StronglySorted R l2.
Proof.
  intros A R l1; induction l1 as [|x l1 IH]; intros l2 l3 H; simpl in H.
  - revert l3 H; induction l2 as [|y l2 IH2]; intros l3 H; [constructor|]. simpl in H.
    inversion H as [|? ? H1 H2]; subst. constructor; [eapply IH2; eauto|].
    apply Forall_app in H2. tauto.
  - inversion H; subst. eapply IH; eauto.
Qed.

Lemma combine_covers : forall c d new i, c <> [] -> combine_regions c d = Some new ->
  nth_error c i = Some true -> exists a b, In (a, b) new /\ a <= i < b.
Proof.
  intros c d new i Hc E Hi. destruct (run_exists c i Hi) as [a [b [Hr Hab]]].
  destruct (contiguous_exact c Hc) as [regs [Er Hin]]. pose proof (proj2 (Hin a b) Hr) as Hin'.
  destruct (Z_le_gt_dec d 0) as [Hd|Hd].
  - rewrite combine_zero in E by auto. rewrite Er in E. inversion E; subst. eauto.
  - destruct (combine_spec c d Hc ltac:(lia)) as [regs' [new' [E1 [E2 [gs [G1 [G2 [G3 [G4 G5]]]]]]]]].
    assert (Q1 : regs' = regs) by congruence. assert (Q2 : new' = new) by congruence.
    rewrite Q1 in *. rewrite Q2 in *. clear Q1 Q2.
    rewrite <- G1 in Hin'. apply in_concat in Hin'. destruct Hin' as [g [Hg Hag]].
    exists (fst (hull g)), (snd (hull g)). split.
    + rewrite G2. rewrite <- surjective_pairing. apply in_map. auto.
    + apply in_split in Hg. destruct Hg as [l1 [l2 ->]].
      assert (Hsort : StronglySorted before regs).
      { pose proof (contiguous_runs c Hc) as E3. assert (Q : regs = runs_f 0 c) by congruence. rewrite Q.
        apply (runs_sorted c 0). }
      assert (Hpos : Forall (fun r => fst r < snd r) regs).
      { apply Forall_forall. intros [x y] Hxy. apply Hin in Hxy. destruct Hxy as [Hxy _]. simpl. lia. }
      rewrite <- G1, concat_app in Hsort, Hpos. cbn [concat] in Hsort, Hpos.
      apply sorted_sub in Hsort. apply Forall_app in Hpos. destruct Hpos as [_ Hpos].
      apply Forall_app in Hpos. destruct Hpos as [Hpos _].
      destruct (sorted_hull g (a, b) Hsort Hpos Hag). simpl in *. lia.
Qed.

Lemma C35_regions_aux : forall c, c <> [] ->
  exists regs, contiguous_regions c = Some regs /\
    StronglySorted (fun r r' => snd r < fst r') regs /\
    forall a b, In (a, b) regs <-> maximal_run c a b.
Proof.
  intros c Hc. destruct (contiguous_exact c Hc) as [regs [E H]]. exists regs. split; auto. split; auto.
  pose proof (contiguous_runs c Hc) as E3. assert (regs = runs_f 0 c) by congruence. subst regs.
  apply (runs_sorted c 0).
Qed.

(** ** Halos *)
Local Open Scope Z_scope.

Lemma is_masked_spec : forall hs h,
  is_masked hs h = true <-> forall h', In h' hs -> ~ dominates (ha_r h) h' h.
Proof.
  intros hs h. unfold is_masked. rewrite Nat.eqb_eq, length_zero_iff_nil. split.
  - intros E h' Hin [H1 [H2 [H3 H4]]].
    assert (In h' []).
    { rewrite <- E. apply filter_In. split; [|apply Z.ltb_lt; auto]. apply filter_In. split; auto.
      unfold in_cube. rewrite !andb_true_iff, !Z.ltb_lt. auto. }
    destruct H.
  - intros H. destruct (filter _ (filter _ hs)) as [|h' l] eqn:E; auto. exfalso.
    assert (Hin : In h' (h' :: l)) by (left; auto). rewrite <- E in Hin.
    apply filter_In in Hin. destruct Hin as [Hin Hm]. apply filter_In in Hin. destruct Hin as [Hin Hc].
    unfold in_cube in Hc. rewrite !andb_true_iff, !Z.ltb_lt in Hc. apply Z.ltb_lt in Hm.
    apply (H h' Hin). unfold dominates. tauto.
Qed.

Lemma combine_seq_in : forall A (l : list A) k i x,
  In (i, x) (combine (seq k (length l)) l) <-> (k <= i)%nat /\ nth_error l (i - k) = Some x.
Proof.
  intros A l; induction l as [|a l IH]; intros k i x; simpl.
  - split; [intros []|]. intros [_ H]. destruct (i - k)%nat; discriminate.
  - rewrite IH. split.
    + intros [E|[H1 H2]].
      * inversion E; subst. rewrite Nat.sub_diag. auto.
      * split; [lia|]. replace (i - k)%nat with (S (i - S k)) by lia. auto.
    + intros [H1 H2]. destruct (Nat.eq_dec i k) as [->|Hne].
      * rewrite Nat.sub_diag in H2. simpl in H2. left. congruence.
      * right. split; [lia|]. replace (i - k)%nat with (S (i - S k)) in H2 by lia. auto.
Qed.

Lemma find_all_in : forall cat m i h,
  In (i, h) (find_all_halos cat m) <->
  exists h0, nth_error cat i = Some h0 /\ m < ha_mass h0 /\
    h = mkHalo (ha_mass h0 * 10 ^ 10) (ha_x h0) (ha_y h0) (ha_z h0) (ha_r h0).
Proof.
  intros cat m i h. unfold find_all_halos. rewrite in_map_iff. split.
  - intros [[j h0] [E H]]. apply filter_In in H. destruct H as [H1 H2]. simpl in *.
    apply combine_seq_in in H1. rewrite Nat.sub_0_r in H1. apply Z.ltb_lt in H2.
    inversion E; subst. exists h0. tauto.
  - intros [h0 [H1 [H2 ->]]]. exists (i, h0). split; auto. apply filter_In. split.
    + apply combine_seq_in. rewrite Nat.sub_0_r. split; [lia|auto].
    + apply Z.ltb_lt. auto.
Qed.

Lemma find_wanted_in : forall cat m dist i,
  (exists h, In (i, h) (find_wanted_halos cat m dist)) <->
  exists h0, nth_error cat i = Some h0 /\ m < ha_mass h0 /\
    forall j h', nth_error cat j = Some h' -> ~ dominates (ha_r h0 * dist) h' h0.
Proof.
  intros cat m dist i. unfold find_wanted_halos.
  set (scale := fun e : nat * halo => (fst e, mkHalo (ha_mass (snd e)) (ha_x (snd e)) (ha_y (snd e))
       (ha_z (snd e)) (ha_r (snd e) * dist))).
  split.
  - intros [h H]. apply filter_In in H. destruct H as [H1 H2]. cbn [snd] in H2.
    apply in_map_iff in H1. destruct H1 as [[j h1] [E H1]]. unfold scale in E. simpl in E. inversion E; subst. clear E.
    apply find_all_in in H1. destruct H1 as [h0 [E0 [Hm ->]]]. exists h0. split; auto. split; auto.
    intros k h' Hk Hd. simpl in H2.
    rewrite is_masked_spec in H2. cbn [ha_r] in H2.
    apply (H2 (mkHalo (ha_mass h' * 10 ^ 10) (ha_x h') (ha_y h') (ha_z h') (ha_r h' * dist))).
    + apply in_map_iff. eexists (k, _). split; [reflexivity|]. apply in_map_iff.
      exists (k, mkHalo (ha_mass h' * 10 ^ 10) (ha_x h') (ha_y h') (ha_z h') (ha_r h')).
      split; [reflexivity|]. apply find_all_in. exists h'. split; auto. split; auto.
      destruct Hd as [Hd _]. lia.
    + destruct Hd as [D1 [D2 [D3 D4]]]. unfold dominates. simpl. repeat split; auto. lia.
  - intros [h0 [E0 [Hm Hd]]].
    exists (mkHalo (ha_mass h0 * 10 ^ 10) (ha_x h0) (ha_y h0) (ha_z h0) (ha_r h0 * dist)).
    apply filter_In. split.
    + apply in_map_iff. exists (i, mkHalo (ha_mass h0 * 10 ^ 10) (ha_x h0) (ha_y h0) (ha_z h0) (ha_r h0)).
      split; [reflexivity|]. apply find_all_in. eauto.
    + cbn [snd]. apply is_masked_spec. intros h' Hin. apply in_map_iff in Hin.
      destruct Hin as [[j h1] [E1 Hin]]. simpl in E1. subst h1. apply in_map_iff in Hin.
      destruct Hin as [[k h2] [E2 Hin]]. unfold scale in E2. simpl in E2. inversion E2; subst. clear E2.
      apply find_all_in in Hin. destruct Hin as [h3 [E3 [_ ->]]]. cbn [ha_r ha_mass ha_x ha_y ha_z].
      intros [D1 [D2 [D3 D4]]]. apply (Hd j h3 E3). simpl in *. unfold dominates.
      repeat split; auto. lia.
Qed.

Lemma filter_sorted_fst : forall (p : nat * halo -> bool) l,
  StronglySorted lt (map fst l) -> StronglySorted lt (map fst (filter p l)).
Proof.
  intros p l; induction l as [|e l IH]; intros H; simpl; [constructor|].
  simpl in H. inversion H as [|? ? H1 H2]; subst. destruct (p e); simpl; auto.
  constructor; auto. rewrite Forall_forall in *. intros x Hx. apply H2.
  apply in_map_iff in Hx. destruct Hx as [y [<- Hy]]. apply filter_In in Hy.
  apply in_map. tauto.
Qed.

Lemma combine_seq_sorted : forall A (l : list A) k,
  StronglySorted lt (map fst (combine (seq k (length l)) l)).
Proof.
  intros A l; induction l as [|a l IH]; intros k; simpl; constructor; auto.
  apply Forall_forall. intros x Hx. apply in_map_iff in Hx. destruct Hx as [[i y] [<- Hy]].
  apply combine_seq_in in Hy. simpl. lia.
Qed.

Lemma find_wanted_sorted : forall cat m dist,
  StronglySorted lt (map fst (find_wanted_halos cat m dist)).
Proof.
  intros cat m dist. unfold find_wanted_halos. apply filter_sorted_fst.
  unfold find_all_halos. rewrite !map_map. cbn [fst].
  change (StronglySorted lt (map fst (filter (fun e => m <? ha_mass (snd e))
     (combine (seq 0 (length cat)) cat)))).
  apply filter_sorted_fst. apply combine_seq_sorted.
Qed.

(** The returned data belong to the catalogue entry of the returned index. *)
Lemma find_wanted_data : forall cat m dist i h, In (i, h) (find_wanted_halos cat m dist) ->
  exists h0, nth_error cat i = Some h0 /\
    h = mkHalo (ha_mass h0 * 10 ^ 10) (ha_x h0) (ha_y h0) (ha_z h0) (ha_r h0 * dist).
Proof.
  intros cat m dist i h H. unfold find_wanted_halos in H. apply filter_In in H. destruct H as [H _].
  apply in_map_iff in H. destruct H as [[j h1] [E H]]. simpl in E. inversion E; subst. clear E.
  apply find_all_in in H. destruct H as [h0 [E0 [_ ->]]]. eauto.
Qed.

Lemma C36_exact_aux : forall cat m dist,
  StronglySorted lt (map fst (find_wanted_halos cat m dist)) /\
  (forall i, In i (map fst (find_wanted_halos cat m dist)) <->
     exists h0, nth_error cat i = Some h0 /\ m < ha_mass h0 /\
       forall j h', nth_error cat j = Some h' -> ~ dominates (ha_r h0 * dist) h' h0) /\
  (forall i h, In (i, h) (find_wanted_halos cat m dist) ->
     exists h0, nth_error cat i = Some h0 /\
       h = mkHalo (ha_mass h0 * 10 ^ 10) (ha_x h0) (ha_y h0) (ha_z h0) (ha_r h0 * dist)).
Proof.
  intros cat m dist. split; [apply find_wanted_sorted|]. split; [|apply find_wanted_data].
  intros i. rewrite <- find_wanted_in, in_map_iff. split.
  - intros [[j h] [<- H]]. eauto.
  - intros [h H]. exists (i, h). auto.
Qed.

Lemma C36_boundary_aux : exists box cat m, 0 < box /\
  (forall h, In h cat -> 0 <= ha_x h < box /\ 0 <= ha_y h < box /\ 0 <= ha_z h < box) /\
  exists big small, nth_error cat 0 = Some big /\ nth_error cat 1 = Some small /\
    ha_mass small < ha_mass big /\
    Z.abs (ha_x small - ha_x big + box) < ha_r small /\
    ha_y small = ha_y big /\ ha_z small = ha_z big /\
    In 1%nat (map fst (find_wanted_halos cat m 1)).
Proof.
  exists 100, [mkHalo 50 99 5 5 10; mkHalo 3 1 5 5 4], 1. split; [lia|]. split.
  - intros h [<-|[<-|[]]]; simpl; lia.
  - do 2 eexists. split; [reflexivity|]. split; [reflexivity|]. simpl. repeat split; try lia; auto.

Qed.
