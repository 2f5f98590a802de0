(** Proofs about names of files: numerals, patterns, sorting. *)
From Coq Require Import Ascii String ZArith List Bool Arith Lia Sorted Permutation NArith.
From Verif Require Import SnapshotModel OpenModel OpenSpec.
Import ListNotations.
Local Open Scope string_scope.
Local Open Scope nat_scope.

(** ** Strings *)
Lemma app_assoc_s : forall a b c : string, (a ++ (b ++ c) = (a ++ b) ++ c)%string.
Proof. induction a; intros; cbn; [reflexivity|]. now rewrite IHa. Qed.

Lemma app_nil_s : forall a : string, (a ++ "" = a)%string.
Proof. induction a; cbn; [reflexivity|]. now rewrite IHa. Qed.

Lemma length_app_s : forall a b : string, String.length (a ++ b)%string = String.length a + String.length b.
Proof. induction a; intros; cbn; [reflexivity|]. now rewrite IHa. Qed.

Lemma app_inj_s : forall a b c d : string, String.length a = String.length b ->
  (a ++ c = b ++ d)%string -> a = b /\ c = d.
Proof.
  induction a as [|x a IH]; intros [|y b] c d L E; cbn in *; try discriminate; [now split|].
  injection E as -> E. injection L as L. destruct (IH _ _ _ L E) as [-> ->]. now split.
Qed.

Lemma prefix_app : forall a s, prefix a s = true <-> exists t, s = (a ++ t)%string.
Proof.
  induction a as [|x a IH]; intros s.
  - split; [intros _; now exists s|]. now destruct s.
  - destruct s as [|y s].
    + split; [discriminate|]. intros [t E]. discriminate.
    + change (prefix (String x a) (String y s)) with (if ascii_dec x y then prefix a s else false).
      destruct (ascii_dec x y) as [->|N].
      * rewrite IH. split; intros [t E]; exists t; [now rewrite E|now injection E].
      * split; [discriminate|]. intros [t E]. injection E as E _. congruence.
Qed.

Lemma substring_all : forall s, substring 0 (String.length s) s = s.
Proof. induction s; cbn; [reflexivity|]. now rewrite IHs. Qed.

Lemma substring_skip : forall a t m, substring (String.length a) m (a ++ t)%string = substring 0 m t.
Proof. induction a; intros; cbn; [reflexivity|]. apply IHa. Qed.

Lemma split_at : forall n s, n <= String.length s ->
  exists a b, s = (a ++ b)%string /\ String.length a = n.
Proof.
  induction n; intros s H.
  - exists "", s. now split.
  - destruct s as [|c s]; cbn in H; [lia|]. destruct (IHn s) as (a & b & -> & L); [lia|].
    exists (String c a), b. cbn. now rewrite L.
Qed.

Lemma ends_with_app : forall t s, ends_with t s = true <-> exists m, s = (m ++ t)%string.
Proof.
  intros t s. unfold ends_with. rewrite andb_true_iff, Nat.leb_le, String.eqb_eq. split.
  - intros [L E]. destruct (split_at (String.length s - String.length t) s) as (a & b & -> & La); [lia|].
    exists a. rewrite <- La in E. rewrite substring_skip in E.
    rewrite length_app_s in La, L. assert (Lb : String.length b = String.length t) by lia.
    rewrite <- Lb, substring_all in E. now rewrite E.
  - intros [m ->]. rewrite length_app_s. split; [lia|].
    replace (String.length m + String.length t - String.length t) with (String.length m) by lia.
    rewrite substring_skip. apply substring_all.
Qed.

Lemma glob_spec : forall a b s, glob_match a b s = true <-> exists m, s = (a ++ m ++ b)%string.
Proof.
  intros a b s. unfold glob_match. rewrite andb_true_iff, prefix_app. split.
  - intros [[t ->] E]. rewrite substring_skip, length_app_s in E.
    replace (String.length a + String.length t - String.length a) with (String.length t) in E by lia.
    rewrite substring_all in E. apply ends_with_app in E. destruct E as [m ->]. now exists m.
  - intros [m ->]. split; [now exists (m ++ b)%string|].
    rewrite substring_skip, length_app_s.
    replace (String.length a + String.length (m ++ b)%string - String.length a) with (String.length (m ++ b)%string) by lia.
    rewrite substring_all. apply ends_with_app. now exists m.
Qed.

(** ** Numerals *)
Lemma reads_app : forall s a m t n, reads a s m -> reads m t n -> reads a (s ++ t)%string n.
Proof. intros s a m t n H. revert t n. induction H; intros; cbn; [assumption|]. econstructor; eauto. Qed.

Lemma digit_inj : forall c d e, is_digit c d -> is_digit c e -> d = e.
Proof.
  intros c d e [Hd ->] [He E]. apply (f_equal nat_of_ascii) in E.
  rewrite !nat_ascii_embedding in E by lia. lia.
Qed.

Lemma reads_bounds : forall a s n, reads a s n ->
  a * 10 ^ String.length s <= n < (a + 1) * 10 ^ String.length s.
Proof.
  intros a s n H. induction H as [a|a c d s n [D _] _ IH]; cbn [String.length]; [cbn; lia|].
  rewrite Nat.pow_succ_r'. nia.
Qed.

Lemma reads_unique : forall s a t n, reads a s n -> reads a t n -> String.length s = String.length t -> s = t.
Proof.
  intros s a t n H. revert t. induction H as [a|a c d s n D H IH]; intros t Ht L.
  - destruct t; [reflexivity|discriminate].
  - inversion Ht as [|a' c' d' t' n' D' Ht']; subst; [discriminate|]. cbn in L. injection L as L.
    pose proof (reads_bounds _ _ _ H) as B. pose proof (reads_bounds _ _ _ Ht') as B'. rewrite <- L in B'.
    assert (P : 0 < 10 ^ String.length s) by (apply Nat.neq_0_lt_0, Nat.pow_nonzero; lia).
    assert (d = d') by (destruct (lt_eq_lt_dec d d') as [[K|K]|K]; [nia|assumption|nia]). subst d'.
    destruct D as [_ ->], D' as [_ ->]. f_equal. now apply IH.
Qed.

Lemma reads_det : forall s a n m, reads a s n -> reads a s m -> n = m.
Proof.
  induction s; intros a' n m H K; inversion H; inversion K; subst; [reflexivity|].
  match goal with A : is_digit a ?d, B : is_digit a ?e |- _ => pose proof (digit_inj _ _ _ A B); subst end. eauto.
Qed.

Lemma numeral_unique : forall s t n, numeral s n -> numeral t n -> s = t.
Proof.
  assert (Aux : forall s t n, numeral s n -> numeral t n -> String.length s <= String.length t -> s = t).
  { intros s t n (H & L & Z) (H' & L' & Z') Le.
    destruct (Nat.eq_dec (String.length s) (String.length t)) as [E|N]; [eapply reads_unique; eauto|exfalso].
    assert (G : 3 < String.length t) by lia. destruct t as [|c t]; [cbn in G; lia|].
    specialize (Z' G c t eq_refl). inversion H' as [|a c' d t' n' D Ht]; subst.
    pose proof (reads_bounds _ _ _ H) as B. pose proof (reads_bounds _ _ _ Ht) as B'. cbn [String.length] in *.
    assert (d <> 0). { intros ->. apply Z'. destruct D as [_ ->]. reflexivity. }
    assert (10 ^ String.length s <= 10 ^ String.length t) by (apply Nat.pow_le_mono_r; lia). nia. }
  intros s t n H H'. destruct (Nat.le_ge_cases (String.length s) (String.length t)); [|symmetry]; eauto.
Qed.

Lemma numeral_det : forall s n m, numeral s n -> numeral s m -> n = m.
Proof. intros s n m (H & _) (K & _). eapply reads_det; eauto. Qed.

Lemma is_digit_digit : forall d, d < 10 -> reads 0 (digit d) d.
Proof. intros d H. unfold digit. econstructor; [split; [exact H|reflexivity]|]. apply reads_nil. Qed.

Lemma reads_digit : forall a d, d < 10 -> reads a (digit d) (10 * a + d).
Proof. intros a d H. unfold digit. econstructor; [split; [exact H|reflexivity]|]. apply reads_nil. Qed.

Lemma decimal_spec : forall f n, n < f ->
  reads 0 (decimal f n) n /\ 1 <= String.length (decimal f n) /\
  (0 < n -> forall c t, decimal f n = String c t -> c <> "0"%char).
Proof.
  induction f; intros n H; [lia|]. cbn [decimal].
  destruct (Nat.ltb_spec n 10) as [L|L].
  - split; [now apply is_digit_digit|]. split; [cbn; lia|]. intros P c t E. unfold digit in E. injection E as <- _.
    intros E. apply (f_equal nat_of_ascii) in E. rewrite nat_ascii_embedding in E by lia. cbn in E. lia.
  - assert (D : n / 10 < f) by (pose proof (Nat.div_lt n 10); lia).
    destruct (IHf _ D) as (A & B & C). pose proof (Nat.mod_upper_bound n 10 ltac:(lia)).
    split; [|split].
    + eapply reads_app; [exact A|]. rewrite (Nat.div_mod n 10) at 3 by lia. apply reads_digit. lia.
    + rewrite length_app_s. lia.
    + intros _ c t E. assert (P : 0 < n / 10) by (apply Nat.div_str_pos; lia).
      destruct (decimal f (n / 10)) as [|c' t'] eqn:Q; [cbn in B; lia|]. cbn in E. injection E as <- _.
      eapply C; [exact P|reflexivity].
Qed.

Lemma zero_reads : forall a s n, reads (10 * a) s n -> reads a (String "0" s) n.
Proof. intros a s n H. econstructor; [split; [apply Nat.lt_0_succ|reflexivity]|]. now rewrite Nat.add_0_r. Qed.

Lemma snap_numeral : forall n, numeral (snap n) n.
Proof.
  intros n. unfold snap, rjust3. destruct (decimal_spec (S n) n (Nat.lt_succ_diag_r n)) as (A & B & C).
  destruct (String.length (decimal (S n) n)) as [|[|[|k]]] eqn:L; [lia| | |].
  - split; [cbn [append]; apply zero_reads; apply zero_reads; exact A|]. cbn [append String.length]. rewrite L. split; [lia|lia].
  - split; [cbn [append]; apply zero_reads; exact A|]. cbn [append String.length]. rewrite L. split; [lia|lia].
  - split; [exact A|]. rewrite L. split; [lia|]. intros K. apply C. 
    pose proof (reads_bounds _ _ _ A) as _. 
    destruct n; [|lia]. exfalso. vm_compute in L. lia.
Qed.

Lemma numeral_snap : forall s n, numeral s n <-> s = snap n.
Proof. intros s n. split; [intros H; eapply numeral_unique; eauto using snap_numeral|intros ->; apply snap_numeral]. Qed.

Lemma looks_glob : forall w n f, glob_match (w ++ snap n)%string "hdf5" f = true <-> looks_like w n f.
Proof.
  intros w n f. rewrite glob_spec. split.
  - intros [m ->]. exists (snap n), m. split; [apply snap_numeral|]. now rewrite <- app_assoc_s.
  - intros (s & m & N & ->). apply numeral_snap in N. subst s. exists m. now rewrite <- app_assoc_s.
Qed.

(** ** Order of names *)
Lemma ascii_compare_trans : forall a b c r, Ascii.compare a b = r -> Ascii.compare b c = r -> Ascii.compare a c = r.
Proof.
  intros a b c r. unfold Ascii.compare. destruct r; rewrite ?N.compare_eq_iff, ?N.compare_lt_iff, ?N.compare_gt_iff; lia.
Qed.

Lemma ascii_compare_refl : forall a, Ascii.compare a a = Eq.
Proof. intros a. unfold Ascii.compare. apply N.compare_refl. Qed.

Lemma compare_refl_s : forall a, String.compare a a = Eq.
Proof. induction a; cbn; [reflexivity|]. now rewrite ascii_compare_refl. Qed.

Lemma compare_trans_gt : forall a b c, String.compare a b = Gt -> String.compare b c = Gt -> String.compare a c = Gt.
Proof.
  induction a as [|x a IH]; intros [|y b] [|z c]; cbn; try discriminate; try reflexivity.
  destruct (Ascii.compare x y) eqn:E; destruct (Ascii.compare y z) eqn:F; try discriminate; intros H K.
  - rewrite (ascii_compare_trans _ _ _ _ E F). eauto.
  - apply Ascii.compare_eq_iff in E. subst. now rewrite F.
  - apply Ascii.compare_eq_iff in F. subst. now rewrite E.
  - now rewrite (ascii_compare_trans _ _ _ _ E F).
Qed.

Definition le_name (f g : string * bool) : Prop := String.compare (fst f) (fst g) <> Gt.

Lemma le_name_trans : forall f g h, le_name f g -> le_name g h -> le_name f h.
Proof.
  intros [f ?] [g ?] [h ?]. unfold le_name. cbn. intros A B C. 
  destruct (String.compare g f) eqn:E.
  - apply String.compare_eq_iff in E. subst. contradiction.
  - rewrite String.compare_antisym, E in A. now apply A.
  - apply B. eapply compare_trans_gt; eauto.
Qed.

Lemma insert_perm : forall f l, Permutation (insert_name f l) (f :: l).
Proof.
  induction l as [|g l IH]; cbn; [reflexivity|]. destruct String.leb; [reflexivity|].
  rewrite IH. apply perm_swap.
Qed.
Lemma sort_perm : forall l, Permutation (sort_names l) l.
Proof. induction l; cbn; [reflexivity|]. rewrite insert_perm. now constructor. Qed.

Lemma insert_sorted_n : forall f l, StronglySorted le_name l -> StronglySorted le_name (insert_name f l).
Proof.
  intros f l H. induction H as [|g l H IH F]; cbn; [repeat constructor|].
  destruct (String.leb (fst f) (fst g)) eqn:E.
  - assert (L : le_name f g). { unfold le_name. intros K. unfold String.leb in E. rewrite K in E. discriminate. }
    constructor; [now constructor|]. constructor; [exact L|].
    eapply Forall_impl; [|exact F]. intros. eapply le_name_trans; eauto.
  - constructor; [exact IH|]. eapply Permutation_Forall; [symmetry; apply insert_perm|].
    constructor; [|exact F]. unfold le_name. unfold String.leb in E.
    destruct (String.compare (fst f) (fst g)) eqn:K; try discriminate. rewrite String.compare_antisym, K. discriminate.
Qed.
Lemma sort_sorted_n : forall l, StronglySorted le_name (sort_names l).
Proof. induction l; cbn; [constructor|]. now apply insert_sorted_n. Qed.

Lemma sorted_snoc : forall A (R : A -> A -> Prop) l x, StronglySorted R l -> Forall (fun y => R y x) l ->
  StronglySorted R (l ++ [x])%list.
Proof.
  intros A R l x H F. induction H as [|y l H IH G]; cbn; [repeat constructor|].
  inversion F; subst. constructor; [auto|]. apply Forall_app. split; [exact G|]. repeat constructor. assumption.
Qed.

Lemma rev_descending : forall l, StronglySorted le_name l -> NoDup (map fst l) ->
  descending (map fst (rev l)).
Proof.
  intros l H. unfold descending. induction H as [|f l H IH F]; intros N; cbn [map rev]; [constructor|].
  cbn in N. inversion N as [|x xs Hx Hn]; subst. rewrite map_app. cbn. apply sorted_snoc; [auto|].
  rewrite map_rev. apply Forall_rev. apply Forall_map. rewrite Forall_forall in *. intros g Hg.
  specialize (F g Hg). unfold le_name in F. rewrite String.compare_antisym.
  destruct (String.compare (fst f) (fst g)) eqn:E; [|reflexivity|contradiction].
  apply String.compare_eq_iff in E. exfalso. apply Hx. rewrite E. now apply in_map.
Qed.
