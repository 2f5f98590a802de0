(** Lemmas about the container models. *)
From Coq Require Import ZArith List Bool Lia Sorting.Sorted Permutation.
From Verif Require Import Containers.
Import ListNotations.
Open Scope Z_scope.

Definition klt {T} (a b : Z * T) : Prop := fst a < fst b.
Definition ksorted {T} (m : imap T) : Prop := StronglySorted klt m.
Definition keys {T} (m : list (Z * T)) : list Z := map fst m.

Lemma ksorted_cons_inv : forall T (a : Z * T) m,
  ksorted (a :: m) -> ksorted m /\ (forall b, In b m -> fst a < fst b).
Proof.
  intros T a m H. inversion H; subst. split; auto.
  intros b Hb. rewrite Forall_forall in H3. apply (H3 b Hb).
Qed.

Lemma ksorted_cons : forall T (a : Z * T) m,
  ksorted m -> (forall b, In b m -> fst a < fst b) -> ksorted (a :: m).
Proof.
  intros T a m H1 H2. constructor; auto. rewrite Forall_forall. intros b Hb. apply H2; auto.
Qed.

Lemma ksorted_fun : forall T (m : imap T) k v v',
  ksorted m -> In (k, v) m -> In (k, v') m -> v = v'.
Proof.
  intros T m k v v'; induction m as [|[k0 v0] m IH]; intros Hs H1 H2.
  - inversion H1.
  - apply ksorted_cons_inv in Hs. destruct Hs as [Hs Hlt]. simpl in *.
    destruct H1 as [H1|H1]; destruct H2 as [H2|H2].
    + congruence.
    + inversion H1; subst. specialize (Hlt _ H2). simpl in Hlt. lia.
    + inversion H2; subst. specialize (Hlt _ H1). simpl in Hlt. lia.
    + auto.
Qed.

Lemma ksorted_ext : forall T (m1 m2 : imap T),
  ksorted m1 -> ksorted m2 -> (forall kv, In kv m1 <-> In kv m2) -> m1 = m2.
Proof.
  intros T m1; induction m1 as [|a m1 IH]; intros m2 H1 H2 Heq.
  - destruct m2 as [|b m2]; auto. exfalso. apply (proj2 (Heq b)). left; auto.
  - destruct m2 as [|b m2].
    { exfalso. apply (proj1 (Heq a)). left; auto. }
    apply ksorted_cons_inv in H1. apply ksorted_cons_inv in H2.
    destruct H1 as [H1 L1]. destruct H2 as [H2 L2].
    assert (a = b).
    { assert (Ha : In a (b :: m2)) by (apply Heq; left; auto).
      assert (Hb : In b (a :: m1)) by (apply Heq; left; auto).
      destruct Ha as [Ha|Ha]; auto. destruct Hb as [Hb|Hb]; auto.
      specialize (L2 _ Ha). specialize (L1 _ Hb). lia. }
    subst b. f_equal. apply IH; auto.
    intros kv; split; intros Hin.
    + assert (H : In kv (a :: m2)) by (apply Heq; right; auto).
      destruct H as [H|H]; auto. subst kv. specialize (L1 _ Hin). lia.
    + assert (H : In kv (a :: m1)) by (apply Heq; right; auto).
      destruct H as [H|H]; auto. subst kv. specialize (L2 _ Hin). lia.
Qed.

Lemma map_assign_spec : forall T k v (m : imap T), ksorted m ->
  ksorted (map_assign k v m) /\
  (forall k' v', In (k', v') (map_assign k v m) <->
     (k' = k /\ v' = v) \/ (k' <> k /\ In (k', v') m)).
Proof.
  intros T k v m; induction m as [|[k0 v0] m IH]; intros Hs.
  - simpl. split.
    + repeat constructor.
    + intros k' v'. split.
      * intros [H|[]]. inversion H; subst. left; auto.
      * intros [[-> ->]|[_ []]]. left; auto.
  - apply ksorted_cons_inv in Hs. destruct Hs as [Hs Hlt].
    destruct (IH Hs) as [IH1 IH2]. simpl.
    destruct (Z.ltb_spec k k0).
    + split.
      * apply ksorted_cons; [apply ksorted_cons; auto|].
        intros b [<-|Hb]; simpl; auto. specialize (Hlt _ Hb). simpl in *. lia.
      * intros k' v'. split.
        -- intros [H0|[H0|H0]].
           ++ inversion H0; auto.
           ++ inversion H0; subst. right. split; [lia|left; auto].
           ++ right. split; [|right; auto]. specialize (Hlt _ H0). simpl in Hlt. lia.
        -- intros [[-> ->]|[Hne Hin]]; [left; auto|right; auto].
    + destruct (Z.eqb_spec k k0).
      * subst k0. split.
        -- apply ksorted_cons; auto.
        -- intros k' v'. split.
           ++ intros [H0|H0]; [inversion H0; auto|].
              right. split; [|right; auto]. specialize (Hlt _ H0). simpl in Hlt. lia.
           ++ intros [[-> ->]|[Hne [Hin|Hin]]]; [left; auto| |right; auto].
              inversion Hin; subst; congruence.
      * split.
        -- apply ksorted_cons; auto.
           intros [k' v'] Hb. apply IH2 in Hb. simpl.
           destruct Hb as [[-> ->]|[_ Hb]]; [lia|]. apply (Hlt _ Hb).
        -- intros k' v'. simpl. rewrite IH2. split.
           ++ intros [H0|[H0|H0]]; [inversion H0; subst; right; split; [lia|left; auto]|auto|].
              destruct H0. right; split; auto.
           ++ intros [H0|[Hne [Hin|Hin]]]; auto.
Qed.

Lemma map_insert_spec : forall T k v (m : imap T), ksorted m ->
  ksorted (map_insert k v m) /\
  (forall k' v', In (k', v') (map_insert k v m) <->
     (k' = k /\ v' = v /\ ~ In k (keys m)) \/ In (k', v') m).
Proof.
  intros T k v m; induction m as [|[k0 v0] m IH]; intros Hs.
  - simpl. split.
    + repeat constructor.
    + intros k' v'. split.
      * intros [H|[]]. inversion H; subst. left; auto.
      * intros [[-> [-> _]]|[]]. left; auto.
  - apply ksorted_cons_inv in Hs. destruct Hs as [Hs Hlt].
    destruct (IH Hs) as [IH1 IH2]. simpl.
    assert (Hk : forall x, In x (keys m) -> k0 < x).
    { intros x Hx. unfold keys in Hx. apply in_map_iff in Hx. destruct Hx as [b [<- Hb]].
      apply (Hlt _ Hb). }
    destruct (Z.ltb_spec k k0).
    + split.
      * apply ksorted_cons; [apply ksorted_cons; auto|].
        intros b [<-|Hb]; simpl; auto. specialize (Hlt _ Hb). simpl in *. lia.
      * intros k' v'. split.
        -- intros [H0|H0]; auto.
           inversion H0; subst. left. repeat split; auto.
           intros [Hc|Hc]; [lia|]. specialize (Hk _ Hc). lia.
        -- intros [[-> [-> _]]|Hin]; [left; auto|right; auto].
    + destruct (Z.eqb_spec k k0).
      * subst k0. split.
        -- apply ksorted_cons; auto.
        -- intros k' v'. split.
           ++ intros H0. right; auto.
           ++ intros [[_ [_ Hc]]|Hin]; auto. exfalso. apply Hc. left; auto.
      * split.
        -- apply ksorted_cons; auto.
           intros [k' v'] Hb. apply IH2 in Hb. simpl.
           destruct Hb as [[-> [-> _]]|Hb]; [lia|]. apply (Hlt _ Hb).
        -- intros k' v'. simpl. rewrite IH2. split.
           ++ intros [H0|[[-> [-> Hc]]|H0]]; auto.
              left. repeat split; auto. intros [Hd|Hd]; [lia|auto].
           ++ intros [[-> [-> Hc]]|[H0|H0]]; auto.
              right; left. repeat split; auto.
Qed.

(** Sets of integers. *)
Definition zsorted (s : list Z) : Prop := StronglySorted Z.lt s.

Lemma zsorted_cons_inv : forall a s, zsorted (a :: s) ->
  zsorted s /\ (forall b, In b s -> a < b).
Proof.
  intros a m H. inversion H; subst. split; auto.
  intros b Hb. rewrite Forall_forall in H3. apply (H3 b Hb).
Qed.

Lemma zsorted_cons : forall a s, zsorted s -> (forall b, In b s -> a < b) -> zsorted (a :: s).
Proof.
  intros a m H1 H2. constructor; auto. rewrite Forall_forall. intros b Hb. apply H2; auto.
Qed.

Lemma set_insert_spec : forall k s, zsorted s ->
  zsorted (set_insert k s) /\ (forall k', In k' (set_insert k s) <-> k' = k \/ In k' s).
Proof.
  intros k s; induction s as [|k0 s IH]; intros Hs.
  - simpl. split; [repeat constructor|]. intros k'. intuition.
  - apply zsorted_cons_inv in Hs. destruct Hs as [Hs Hlt].
    destruct (IH Hs) as [IH1 IH2]. simpl.
    destruct (Z.ltb_spec k k0).
    + split.
      * apply zsorted_cons; [apply zsorted_cons; auto|].
        intros b [<-|Hb]; auto. specialize (Hlt _ Hb). lia.
      * intros k'. simpl. intuition.
    + destruct (Z.eqb_spec k k0).
      * subst k0. split; [apply zsorted_cons; auto|]. intros k'. simpl. intuition.
      * split.
        -- apply zsorted_cons; auto. intros b Hb. apply IH2 in Hb.
           destruct Hb as [->|Hb]; [lia|auto].
        -- intros k'. simpl. rewrite IH2. intuition.
Qed.

Lemma zsorted_ext : forall s1 s2, zsorted s1 -> zsorted s2 ->
  (forall k, In k s1 <-> In k s2) -> s1 = s2.
Proof.
  intros s1; induction s1 as [|a s1 IH]; intros s2 H1 H2 Heq.
  - destruct s2 as [|b s2]; auto. exfalso. apply (proj2 (Heq b)). left; auto.
  - destruct s2 as [|b s2].
    { exfalso. apply (proj1 (Heq a)). left; auto. }
    apply zsorted_cons_inv in H1. apply zsorted_cons_inv in H2.
    destruct H1 as [H1 L1]. destruct H2 as [H2 L2].
    assert (a = b).
    { assert (Ha : In a (b :: s2)) by (apply Heq; left; auto).
      assert (Hb : In b (a :: s1)) by (apply Heq; left; auto).
      destruct Ha as [Ha|Ha]; auto. destruct Hb as [Hb|Hb]; auto.
      specialize (L2 _ Ha). specialize (L1 _ Hb). lia. }
    subst b. f_equal. apply IH; auto.
    intros kv; split; intros Hin.
    + assert (H : In kv (a :: s2)) by (apply Heq; right; auto).
      destruct H as [H|H]; auto. subst kv. specialize (L1 _ Hin). lia.
    + assert (H : In kv (a :: s1)) by (apply Heq; right; auto).
      destruct H as [H|H]; auto. subst kv. specialize (L2 _ Hin). lia.
Qed.

(** Multimaps. *)
Definition kle (a b : Z * nat) : Prop := fst a <= fst b.
Definition mmsorted (m : multimap) : Prop := StronglySorted kle m.

Lemma mmsorted_cons_inv : forall a m, mmsorted (a :: m) ->
  mmsorted m /\ (forall b, In b m -> fst a <= fst b).
Proof.
  intros a m H. inversion H; subst. split; auto.
  intros b Hb. rewrite Forall_forall in H3. apply (H3 b Hb).
Qed.

Lemma mm_insert_perm : forall k v m, Permutation (mm_insert k v m) ((k, v) :: m).
Proof.
  intros k v m; induction m as [|[k0 v0] m IH]; simpl; auto.
  destruct (k <? k0); auto.
  eapply perm_trans; [apply perm_skip, IH|apply perm_swap].
Qed.

Lemma mm_insert_sorted : forall k v m, mmsorted m -> mmsorted (mm_insert k v m).
Proof.
  intros k v m; induction m as [|[k0 v0] m IH]; intros Hs; simpl.
  - repeat constructor.
  - destruct (Z.ltb_spec k k0).
    + constructor; auto. apply mmsorted_cons_inv in Hs. destruct Hs as [_ Hle].
      rewrite Forall_forall. intros b [<-|Hb]; unfold kle; simpl; [lia|].
      specialize (Hle _ Hb). simpl in Hle. lia.
    + apply mmsorted_cons_inv in Hs. destruct Hs as [Hs Hle].
      constructor; [apply IH; auto|].
      rewrite Forall_forall. intros b Hb.
      apply (Permutation_in _ (mm_insert_perm k v m)) in Hb.
      destruct Hb as [<-|Hb]; unfold kle; simpl; [lia|]. apply (Hle _ Hb).
Qed.

Lemma lower_bound_length : forall m k, (lower_bound m k <= length m)%nat.
Proof.
  induction m as [|[k0 v0] m IH]; intros k; simpl; [lia|].
  destruct (k0 <? k); simpl; [specialize (IH k); lia|lia].
Qed.

Lemma lower_bound_mono : forall m k k', mmsorted m -> k <= k' ->
  (lower_bound m k <= lower_bound m k')%nat.
Proof.
  induction m as [|[k0 v0] m IH]; intros k k' Hs Hk; simpl; [lia|].
  apply mmsorted_cons_inv in Hs. destruct Hs as [Hs _].
  destruct (Z.ltb_spec k0 k); destruct (Z.ltb_spec k0 k'); try lia.
  specialize (IH k k' Hs Hk). lia.
Qed.

Lemma firstn_lower_bound : forall m k e, mmsorted m ->
  (In e (firstn (lower_bound m k) m) <-> In e m /\ fst e < k).
Proof.
  induction m as [|[k0 v0] m IH]; intros k e Hs; simpl.
  - split; [intros []|intros [[] _]].
  - apply mmsorted_cons_inv in Hs. destruct Hs as [Hs Hle].
    destruct (Z.ltb_spec k0 k); simpl.
    + rewrite IH by auto. split.
      * intros [<-|[H1 H2]]; [split; simpl; auto|auto].
      * intros [[<-|H1] H2]; auto.
    + split; [intros []|]. intros [[<-|H1] H2]; simpl in *; [lia|].
      specialize (Hle _ H1). simpl in Hle. lia.
Qed.

Lemma skipn_lower_bound : forall m k e, mmsorted m ->
  (In e (skipn (lower_bound m k) m) <-> In e m /\ k <= fst e).
Proof.
  induction m as [|[k0 v0] m IH]; intros k e Hs; simpl.
  - split; [intros []|intros [[] _]].
  - apply mmsorted_cons_inv in Hs. destruct Hs as [Hs Hle].
    destruct (Z.ltb_spec k0 k); simpl.
    + rewrite IH by auto. split.
      * intros [H1 H2]; auto.
      * intros [[<-|H1] H2]; simpl in *; [lia|auto].
    + split.
      * intros [<-|H1]; [simpl; auto|]. split; auto.
        specialize (Hle _ H1). simpl in Hle. lia.
      * intros [H1 _]. auto.
Qed.

Lemma skipn_sorted : forall n m, mmsorted m -> mmsorted (skipn n m).
Proof.
  induction n as [|n IH]; intros m Hs; simpl; auto.
  destruct m as [|a m]; auto. apply IH. apply mmsorted_cons_inv in Hs. tauto.
Qed.

Lemma lower_bound_skipn : forall m k k', mmsorted m -> k <= k' ->
  (lower_bound (skipn (lower_bound m k) m) k' = lower_bound m k' - lower_bound m k)%nat.
Proof.
  induction m as [|[k0 v0] m IH]; intros k k' Hs Hk; simpl; auto.
  apply mmsorted_cons_inv in Hs. destruct Hs as [Hs Hle].
  destruct (Z.ltb_spec k0 k); destruct (Z.ltb_spec k0 k'); simpl; try lia.
  - rewrite IH; auto.
  - destruct (Z.ltb_spec k0 k'); lia.
  - destruct (Z.ltb_spec k0 k'); lia.
Qed.

(** The three ranges scanned by get_nearby. *)
Lemma iter_range_mid : forall m k k', mmsorted m -> k <= k' ->
  exists es, iter_range m (lower_bound m k) (lower_bound m k') = Some es /\
    (forall e, In e es <-> In e m /\ k <= fst e < k').
Proof.
  intros m k k' Hs Hk. unfold iter_range.
  pose proof (lower_bound_mono m k k' Hs Hk) as Hm.
  destruct (Nat.ltb_spec (lower_bound m k') (lower_bound m k)); [lia|].
  eexists; split; [reflexivity|].
  intros e. rewrite <- lower_bound_skipn by auto.
  rewrite firstn_lower_bound by (apply skipn_sorted; auto).
  rewrite skipn_lower_bound by auto. tauto.
Qed.

Lemma iter_range_lo : forall m k, mmsorted m ->
  exists es, iter_range m 0 (lower_bound m k) = Some es /\
    (forall e, In e es <-> In e m /\ fst e < k).
Proof.
  intros m k Hs. unfold iter_range.
  destruct (Nat.ltb_spec (lower_bound m k) 0); [lia|].
  eexists; split; [reflexivity|].
  intros e. rewrite Nat.sub_0_r. simpl. apply firstn_lower_bound; auto.
Qed.

Lemma iter_range_hi : forall m k, mmsorted m ->
  exists es, iter_range m (lower_bound m k) (length m) = Some es /\
    (forall e, In e es <-> In e m /\ k <= fst e).
Proof.
  intros m k Hs. unfold iter_range.
  pose proof (lower_bound_length m k).
  destruct (Nat.ltb_spec (length m) (lower_bound m k)); [lia|].
  eexists; split; [reflexivity|].
  intros e. rewrite firstn_all2.
  - apply skipn_lower_bound; auto.
  - rewrite skipn_length. lia.
Qed.

Lemma NoDup_app_parts : forall A (l l' : list A), NoDup (l ++ l') -> NoDup l /\ NoDup l'.
Proof.
  intros A l l'; induction l as [|a l IH]; simpl; intros H.
  - split; auto. constructor.
  - inversion H; subst. destruct (IH H3). split; auto.
    constructor; auto. intros Hin. apply H2. apply in_or_app; auto.
Qed.

Lemma NoDup_firstn : forall A n (l : list A), NoDup l -> NoDup (firstn n l).
Proof.
  intros A n l H. rewrite <- (firstn_skipn n l) in H.
  apply NoDup_app_parts in H. tauto.
Qed.

Lemma NoDup_skipn : forall A n (l : list A), NoDup l -> NoDup (skipn n l).
Proof.
  intros A n l H. rewrite <- (firstn_skipn n l) in H.
  apply NoDup_app_parts in H. tauto.
Qed.

Lemma iter_range_nodup : forall m a b es, NoDup (map snd m) ->
  iter_range m a b = Some es -> NoDup (map snd es).
Proof.
  intros m a b es Hn H. unfold iter_range in H.
  destruct (Nat.ltb b a); inversion H; subst.
  rewrite <- firstn_map. apply NoDup_firstn.
  rewrite <- skipn_map. apply NoDup_skipn. auto.
Qed.

Lemma to_int32_id : forall z, - 2 ^ 31 <= z < 2 ^ 31 -> to_int32 z = z.
Proof.
  intros z Hz. unfold to_int32. rewrite Z.mod_small; lia.
Qed.
