(** Proofs about files, segments and handles. *)
From Coq Require Import ZArith List Bool Arith Lia Permutation.
From Verif Require Import SnapshotModel SnapshotSpec.
Import ListNotations.

(** ** Slices *)

Lemma firstn_app_skipn : forall A (m k : nat) (l : list A),
  firstn m l ++ firstn k (skipn m l) = firstn (m + k) l.
Proof.
  intros A m; induction m as [|m IH]; intros k l; simpl; auto.
  destruct l; simpl; [rewrite firstn_nil; auto|]. f_equal. apply IH.
Qed.

Lemma skipn_skipn_add : forall A (a b : nat) (l : list A), skipn a (skipn b l) = skipn (a + b) l.
Proof.
  intros A a b; revert a; induction b as [|b IH]; intros a l; simpl.
  - rewrite Nat.add_0_r; auto.
  - destruct l; [rewrite !skipn_nil; auto|]. rewrite Nat.add_succ_r. simpl. apply IH.
Qed.

Lemma slice_app : forall A (a b c : nat) (l : list A), a <= b -> b <= c ->
  slice a b l ++ slice b c l = slice a c l.
Proof.
  intros A a b c l H1 H2. unfold slice.
  replace (skipn b l) with (skipn (b - a) (skipn a l)) by (rewrite skipn_skipn_add; f_equal; lia).
  rewrite firstn_app_skipn. f_equal. lia.
Qed.

Lemma slice_nil : forall A (a : nat) (l : list A), slice a a l = [].
Proof. intros; unfold slice. rewrite Nat.sub_diag. auto. Qed.

Lemma slice_all : forall A (l : list A), slice 0 (length l) l = l.
Proof. intros; unfold slice. rewrite Nat.sub_0_r. simpl. apply firstn_all. Qed.

Lemma slice_length : forall A a b (l : list A), b <= length l -> length (slice a b l) = b - a.
Proof. intros; unfold slice. rewrite firstn_length, skipn_length. lia. Qed.

Lemma slices_seq : forall A (g : nat -> nat) (l : list A) k,
  (forall i, g i <= g (S i)) ->
  flat_map (fun i => slice (g i) (g (S i)) l) (seq 0 k) = slice (g 0) (g k) l.
Proof.
  intros A g l k Hg. induction k as [|k IH].
  - simpl. rewrite slice_nil. auto.
  - rewrite seq_S, flat_map_app, IH. simpl. rewrite app_nil_r. apply slice_app; auto.
    clear IH. induction k; auto. etransitivity; eauto.
Qed.

Lemma flat_map_ext_in : forall A B (f g : A -> list B) l,
  (forall a, In a l -> f a = g a) -> flat_map f l = flat_map g l.
Proof.
  intros A B f g l; induction l as [|a l IH]; intros H; simpl; auto.
  rewrite H by (left; auto). f_equal. apply IH. intros; apply H; right; auto.
Qed.

Lemma flat_map_app_perm : forall A B (f g : A -> list B) l,
  Permutation (flat_map (fun a => f a ++ g a) l) (flat_map f l ++ flat_map g l).
Proof.
  intros A B f g l; induction l as [|a l IH]; simpl; auto.
  rewrite IH, <- !app_assoc. apply Permutation_app_head.
  rewrite !app_assoc. apply Permutation_app_tail. apply Permutation_app_comm.
Qed.

Lemma filter_flat_map : forall A B (p : B -> bool) (f : A -> list B) l,
  filter p (flat_map f l) = flat_map (fun a => filter p (f a)) l.
Proof.
  intros A B p f l; induction l as [|a l IH]; simpl; auto. rewrite filter_app, IH. auto.
Qed.

Lemma Permutation_filter : forall A (p : A -> bool) l l',
  Permutation l l' -> Permutation (filter p l) (filter p l').
Proof.
  intros A p l l' H; induction H; simpl; auto.
  - destruct (p x); auto.
  - destruct (p x), (p y); auto. apply perm_swap.
  - etransitivity; eauto.
Qed.

(** ** Files of a rank *)

(** The list before the h5py test: slice plus possibly one more file. *)
Definition rank_extra {A} (fnames : list A) (size rank : nat) : list A :=
  let q := length fnames / size in
  let rem := length fnames - q * size in
  if (1 <=? rank) && (rank <? rem + 1) then slice (q * size + rank - 1) (q * size + rank) fnames
  else [].

Definition rank_raw {A} (fnames : list A) (size rank : nat) : list A :=
  let q := length fnames / size in
  slice (rank * q) ((rank + 1) * q) fnames ++ rank_extra fnames size rank.

Lemma slice_one : forall A (l : list A) n x, nth_error l n = Some x -> slice n (S n) l = [x].
Proof.
  intros A l n x H. unfold slice. replace (S n - n) with 1 by lia.
  apply nth_error_split in H. destruct H as [l1 [l2 [-> <-]]].
  rewrite skipn_app, skipn_all, Nat.sub_diag. reflexivity.
Qed.

Lemma rem_bounds : forall n size, 0 < size ->
  n = n / size * size + (n - n / size * size) /\ n - n / size * size < size.
Proof.
  intros n size H. pose proof (Nat.div_mod n size ltac:(lia)).
  pose proof (Nat.mod_upper_bound n size ltac:(lia)). nia.
Qed.

Lemma rank_files_raw : forall A (p : A -> bool) fnames size rank, 0 < size ->
  rank_files p fnames size rank = Some (filter p (rank_raw fnames size rank)).
Proof.
  intros A p fnames size rank Hs. unfold rank_files, rank_raw, rank_extra.
  destruct (rem_bounds (length fnames) size Hs) as [Hn Hr].
  set (q := length fnames / size) in *. set (rem := length fnames - q * size) in *.
  destruct ((1 <=? rank) && (rank <? rem + 1)) eqn:E; [|rewrite app_nil_r; auto].
  apply andb_true_iff in E. destruct E as [E1 E2].
  apply Nat.leb_le in E1. apply Nat.ltb_lt in E2.
  destruct (nth_error fnames (q * size + rank - 1)) eqn:En.
  - apply slice_one in En. replace (S (q * size + rank - 1)) with (q * size + rank) in En by lia.
    rewrite En. auto.
  - apply nth_error_None in En. lia.
Qed.

Lemma rank_raw_perm : forall A (fnames : list A) size, 0 < size ->
  Permutation (flat_map (rank_raw fnames size) (seq 0 size)) fnames.
Proof.
  intros A fnames size Hs. unfold rank_raw. rewrite flat_map_app_perm.
  destruct (rem_bounds (length fnames) size Hs) as [Hn Hr].
  unfold rank_extra.
  set (q := length fnames / size) in *. set (rem := length fnames - q * size) in *.
  assert (E1 : flat_map (fun a => slice (a * q) ((a + 1) * q) fnames) (seq 0 size)
               = slice 0 (q * size) fnames).
  { rewrite (flat_map_ext_in _ _ _ (fun i => slice (i * q) (S i * q) fnames)).
    - rewrite (slices_seq A (fun i => i * q) fnames size); [|intros; simpl; lia].
      f_equal. lia.
    - intros a _. f_equal. lia. }
  rewrite E1.
  assert (E2 : flat_map (fun rank => if (1 <=? rank) && (rank <? rem + 1)
                  then slice (q * size + rank - 1) (q * size + rank) fnames else [])
               (seq 0 size) = slice (q * size) (length fnames) fnames).
  { assert (Es : seq 0 size = seq 0 (S rem) ++ seq (S rem) (size - S rem))
      by (change (S rem) with (0 + S rem) at 2; rewrite <- seq_app; f_equal; lia).
    rewrite Es, flat_map_app.
    rewrite (flat_map_ext_in _ _ _ (fun _ => []) (seq (S rem) _)).
    2:{ intros a Ha. apply in_seq in Ha.
        destruct (a <? rem + 1) eqn:E; [apply Nat.ltb_lt in E; lia|]. rewrite andb_false_r; auto. }
    replace (flat_map (fun _ : nat => []) (seq (S rem) (size - S rem))) with (@nil A)
      by (clear; generalize (S rem) at 1; intros s; revert s; induction (size - S rem); simpl; auto).
    rewrite app_nil_r. cbn [seq flat_map]. cbn [Nat.leb andb app].
    rewrite <- seq_shift, flat_map_concat_map, map_map, <- flat_map_concat_map.
    rewrite (flat_map_ext_in _ _ _ (fun i => slice (q * size + i) (q * size + S i) fnames)).
    - rewrite (slices_seq A (fun i => q * size + i)); [|intros; lia].
      f_equal; lia.
    - intros a Ha. apply in_seq in Ha.
      destruct (S a <? rem + 1) eqn:E; [|apply Nat.ltb_ge in E; lia].
      simpl. f_equal; lia. }
  rewrite E2, slice_app by lia. rewrite slice_all. auto.
Qed.

Lemma rank_raw_length : forall A (fnames : list A) size rank, 0 < size -> rank < size ->
  length (rank_raw fnames size rank) =
  length fnames / size
  + (if (1 <=? rank) && (rank <=? length fnames mod size) then 1 else 0).
Proof.
  intros A fnames size rank Hs Hr. unfold rank_raw, rank_extra. rewrite app_length.
  assert (Hm : length fnames - length fnames / size * size = length fnames mod size)
    by (pose proof (Nat.div_mod (length fnames) size ltac:(lia)); lia).
  destruct (rem_bounds (length fnames) size Hs) as [Hn Hrem].
  rewrite Hm in *. set (q := length fnames / size) in *. set (rem := length fnames mod size) in *.
  rewrite slice_length by nia. f_equal; [nia|].
  replace (rank <? rem + 1) with (rank <=? rem)
    by (destruct (Nat.leb_spec rank rem), (Nat.ltb_spec rank (rem + 1)); auto; lia).
  destruct ((1 <=? rank) && (rank <=? rem)) eqn:E; auto.
  apply andb_true_iff in E. destruct E as [E1 E2].
  apply Nat.leb_le in E1. apply Nat.leb_le in E2. rewrite slice_length; lia.
Qed.

(** ** BigFile segments *)
Local Open Scope Z_scope.

Lemma fold_left_add : forall (f : nat -> Z) l a,
  fold_left (fun acc r => acc + f r) l a = a + fold_left (fun acc r => acc + f r) l 0.
Proof.
  intros f l; induction l as [|x l IH]; intros a; simpl; [lia|].
  rewrite IH, (IH (f x)). lia.
Qed.

Lemma first_part_rank_S : forall npart size r,
  first_part_rank npart size (Z.of_nat (S r)) =
  first_part_rank npart size (Z.of_nat r) + parts_rank npart size (Z.of_nat r).
Proof.
  intros. unfold first_part_rank. rewrite !Nat2Z.id, seq_S, fold_left_app. simpl. auto.
Qed.

Lemma first_part_rank_closed : forall npart size r, 0 < size ->
  first_part_rank npart size (Z.of_nat r) =
  Z.of_nat r * (npart / size) + Z.min (Z.of_nat r) (npart mod size).
Proof.
  intros npart size r Hs. pose proof (Z.mod_pos_bound npart size Hs).
  induction r as [|r IH]; [unfold first_part_rank; simpl; lia|].
  rewrite first_part_rank_S, IH. unfold parts_rank.
  destruct (Z.ltb_spec (Z.of_nat r) (npart mod size)); lia.
Qed.

Lemma first_part_rank_size : forall npart size, 0 < size -> 0 <= npart ->
  first_part_rank npart size size = npart.
Proof.
  intros npart size Hs Hn. replace size with (Z.of_nat (Z.to_nat size)) at 2 by lia.
  rewrite first_part_rank_closed by lia. rewrite Z2Nat.id by lia.
  pose proof (Z.mod_pos_bound npart size Hs). rewrite Z.min_r by lia.
  pose proof (Z.div_mod npart size ltac:(lia)). lia.
Qed.

Lemma parts_rank_nonneg : forall npart size r, 0 < size -> 0 <= npart -> 0 <= parts_rank npart size r.
Proof.
  intros. unfold parts_rank. pose proof (Z.div_pos npart size). destruct (r <? _); lia.
Qed.

Lemma first_part_rank_mono : forall npart size r, 0 < size -> 0 <= npart ->
  0 <= first_part_rank npart size (Z.of_nat r) <= first_part_rank npart size (Z.of_nat (S r)).
Proof.
  intros npart size r Hs Hn.
  pose proof (parts_rank_nonneg npart size (Z.of_nat r) Hs Hn).
  rewrite first_part_rank_S. split; [|lia].
  rewrite first_part_rank_closed by lia. pose proof (Z.div_pos npart size).
  pose proof (Z.mod_pos_bound npart size Hs). nia.
Qed.

(** What a rank reads, in one piece. *)
Lemma rank_reads_slice : forall A (block : list A) npart size r chunk,
  0 < size -> 0 <= npart -> 0 < chunk ->
  bigfile_rank_reads block npart size (Z.of_nat r) chunk =
  slice (Z.to_nat (first_part_rank npart size (Z.of_nat r)))
        (Z.to_nat (first_part_rank npart size (Z.of_nat r)
                   + (parts_rank npart size (Z.of_nat r)
                      - parts_rank npart size (Z.of_nat r) mod
                        n_segments npart size (Z.of_nat r) chunk))) block.
Proof.
  intros A block npart size r chunk Hs Hn Hc.
  unfold bigfile_rank_reads, bigfile_get_data, segment_to_partlist.
  pose proof (first_part_rank_mono npart size r Hs Hn) as Hf.
  pose proof (parts_rank_nonneg npart size (Z.of_nat r) Hs Hn) as Hp.
  set (P := parts_rank npart size (Z.of_nat r)) in *.
  set (k := n_segments npart size (Z.of_nat r) chunk).
  assert (Hk : 1 <= k) by (unfold k, n_segments; lia).
  set (f := first_part_rank npart size (Z.of_nat r)) in *.
  set (one := P / k). assert (Hone : 0 <= one) by (apply Z.div_pos; lia).
  assert (HP : P - P mod k = one * k) by (unfold one; pose proof (Z.div_mod P k); lia).
  rewrite HP.
  rewrite (flat_map_ext_in _ _ _
    (fun s => slice ((fun i => Z.to_nat (f + one * Z.of_nat i)) s)
                    ((fun i => Z.to_nat (f + one * Z.of_nat i)) (S s)) block)).
  2:{ intros s _. destruct (Z.ltb_spec (Z.of_nat s) 0); [lia|].
      do 2 f_equal. lia. }
  rewrite (slices_seq A (fun i => Z.to_nat (f + one * Z.of_nat i))) by (intros; nia).
  f_equal; f_equal; nia.
Qed.

Lemma slice_eq_prefix : forall A (l : list A) a b c, (a <= b)%nat -> (b <= c)%nat -> (c <= length l)%nat ->
  slice a b l = slice a c l -> b = c.
Proof.
  intros A l a b c H1 H2 H3 E. apply (f_equal (@length A)) in E.
  rewrite !slice_length in E by lia. lia.
Qed.

Lemma all_reads_length : forall A (block : list A) size chunk, 0 < size -> 0 < chunk ->
  Z.of_nat (length (bigfile_all_reads block size chunk)) =
  Z.of_nat (length block) -
  fold_left (fun acc r => acc +
     parts_rank (Z.of_nat (length block)) size (Z.of_nat r) mod
     n_segments (Z.of_nat (length block)) size (Z.of_nat r) chunk) (seq 0 (Z.to_nat size)) 0.
Proof.
  intros A block size chunk Hs Hc. unfold bigfile_all_reads.
  set (N := Z.of_nat (length block)).
  assert (G : forall k, (k <= Z.to_nat size)%nat ->
    Z.of_nat (length (flat_map (fun r => bigfile_rank_reads block N size (Z.of_nat r) chunk) (seq 0 k)))
    = first_part_rank N size (Z.of_nat k) -
      fold_left (fun acc r => acc + parts_rank N size (Z.of_nat r) mod
                 n_segments N size (Z.of_nat r) chunk) (seq 0 k) 0).
  { induction k as [|k IH]; intros Hk; [reflexivity|].
    rewrite seq_S, Nat.add_0_l, flat_map_app, app_length, fold_left_app.
    cbn [flat_map fold_left].
    rewrite app_nil_r, rank_reads_slice by (unfold N; lia).
    rewrite Nat2Z.inj_add, IH by lia.
    pose proof (first_part_rank_mono N size k Hs ltac:(unfold N; lia)) as Hf.
    rewrite first_part_rank_S in *.
    pose proof (parts_rank_nonneg N size (Z.of_nat k) Hs ltac:(unfold N; lia)) as Hp.
    assert (Hseg : 1 <= n_segments N size (Z.of_nat k) chunk) by (unfold n_segments; lia).
    pose proof (Z.mod_pos_bound (parts_rank N size (Z.of_nat k)) (n_segments N size (Z.of_nat k) chunk) ltac:(lia)) as Hm.
    pose proof (Z.mod_le (parts_rank N size (Z.of_nat k)) (n_segments N size (Z.of_nat k) chunk) ltac:(lia) ltac:(lia)) as Hle.
    assert (Hend : first_part_rank N size (Z.of_nat k) + parts_rank N size (Z.of_nat k) <= N).
    { rewrite <- first_part_rank_S.
      rewrite first_part_rank_closed by lia.
      pose proof (Z.div_mod N size ltac:(lia)). pose proof (Z.mod_pos_bound N size Hs).
      assert (0 <= N / size) by (apply Z.div_pos; unfold N; lia). nia. }
    rewrite slice_length; [|unfold N in *; lia].
    set (F := fold_left _ _ _). set (m := _ mod _) in *. lia. }
  rewrite G by lia. rewrite Z2Nat.id by lia. rewrite first_part_rank_size by (unfold N; lia). auto.
Qed.

Lemma all_reads_complete : forall A (block : list A) size chunk, 0 < size -> 0 < chunk ->
  (forall r, 0 <= r < size ->
     parts_rank (Z.of_nat (length block)) size r mod
     n_segments (Z.of_nat (length block)) size r chunk = 0) ->
  bigfile_all_reads block size chunk = block.
Proof.
  intros A block size chunk Hs Hc H. unfold bigfile_all_reads.
  set (N := Z.of_nat (length block)) in *.
  rewrite (flat_map_ext_in _ _ _
    (fun r => slice ((fun i => Z.to_nat (first_part_rank N size (Z.of_nat i))) r)
                    ((fun i => Z.to_nat (first_part_rank N size (Z.of_nat i))) (S r)) block)).
  - rewrite (slices_seq A (fun i => Z.to_nat (first_part_rank N size (Z.of_nat i)))).
    + rewrite Z2Nat.id by lia. rewrite first_part_rank_size by (unfold N; lia).
      unfold N. rewrite Nat2Z.id. apply slice_all.
    + intros i. pose proof (first_part_rank_mono N size i Hs ltac:(unfold N; lia)). lia.
  - intros r Hr. apply in_seq in Hr. rewrite rank_reads_slice by (unfold N; lia).
    rewrite H by lia. f_equal. f_equal. rewrite first_part_rank_S. lia.
Qed.

Lemma fold_add_nonneg : forall (f : nat -> Z) l, (forall r, In r l -> 0 <= f r) ->
  0 <= fold_left (fun acc r => acc + f r) l 0 /\
  (fold_left (fun acc r => acc + f r) l 0 = 0 -> forall r, In r l -> f r = 0).
Proof.
  intros f l; induction l as [|x l IH]; intros H; simpl.
  - split; [lia|intros _ r []].
  - destruct IH as [I1 I2]; [intros; apply H; right; auto|].
    pose proof (H x (or_introl eq_refl)). rewrite fold_left_add. split; [lia|].
    intros E r [<-|Hr]; [lia|]. apply I2; auto. lia.
Qed.

Lemma all_reads_iff : forall A (block : list A) size chunk, 0 < size -> 0 < chunk ->
  (bigfile_all_reads block size chunk = block <->
   forall r, 0 <= r < size ->
     (n_segments (Z.of_nat (length block)) size r chunk |
      parts_rank (Z.of_nat (length block)) size r)).
Proof.
  intros A block size chunk Hs Hc. split.
  - intros E r Hr. pose proof (all_reads_length A block size chunk Hs Hc) as HL.
    rewrite E in HL.
    destruct (fold_add_nonneg (fun r => parts_rank (Z.of_nat (length block)) size (Z.of_nat r) mod
       n_segments (Z.of_nat (length block)) size (Z.of_nat r) chunk) (seq 0 (Z.to_nat size))) as [_ H0].
    { intros x _. apply Z.mod_pos_bound. unfold n_segments. lia. }
    cbv beta in H0.
    assert (HF : fold_left (fun acc r => acc +
       parts_rank (Z.of_nat (length block)) size (Z.of_nat r) mod
       n_segments (Z.of_nat (length block)) size (Z.of_nat r) chunk) (seq 0 (Z.to_nat size)) 0 = 0)
      by lia.
    specialize (H0 HF (Z.to_nat r) ltac:(apply in_seq; lia)).
    rewrite Z2Nat.id in H0 by lia. apply Z.mod_divide; auto. unfold n_segments. lia.
  - intros H. apply all_reads_complete; auto. intros r Hr.
    apply Z.mod_divide; auto. unfold n_segments. lia.
Qed.

(** Each rank's reads are exactly the first [parts - parts mod n_segments] of its own share. *)
Lemma rank_share : forall A (block : list A) size chunk r, 0 < size -> 0 < chunk -> 0 <= r < size ->
  let N := Z.of_nat (length block) in
  exists share unread,
    slice (Z.to_nat (first_part_rank N size r)) (Z.to_nat (first_part_rank N size (r + 1))) block = share /\
    share = bigfile_rank_reads block N size r chunk ++ unread /\
    Z.of_nat (length unread) = parts_rank N size r mod n_segments N size r chunk.
Proof.
  intros A block size chunk r Hs Hc Hr N.
  eexists. exists (slice (Z.to_nat (first_part_rank N size r + (parts_rank N size r -
     parts_rank N size r mod n_segments N size r chunk)))
     (Z.to_nat (first_part_rank N size (r + 1))) block). split; [reflexivity|].
  replace r with (Z.of_nat (Z.to_nat r)) by lia. set (k := Z.to_nat r).
  rewrite rank_reads_slice by (unfold N; lia).
  replace (Z.of_nat k + 1) with (Z.of_nat (S k)) by lia.
  pose proof (first_part_rank_mono N size k Hs ltac:(unfold N; lia)) as Hf.
  rewrite first_part_rank_S in *.
  assert (Hseg : 1 <= n_segments N size (Z.of_nat k) chunk) by (unfold n_segments; lia).
  pose proof (parts_rank_nonneg N size (Z.of_nat k) Hs ltac:(unfold N; lia)) as Hp.
  pose proof (Z.mod_pos_bound (parts_rank N size (Z.of_nat k)) (n_segments N size (Z.of_nat k) chunk) ltac:(lia)) as Hm.
  pose proof (Z.mod_le (parts_rank N size (Z.of_nat k)) (n_segments N size (Z.of_nat k) chunk) ltac:(lia) ltac:(lia)) as Hle.
  assert (Hend : first_part_rank N size (Z.of_nat k) + parts_rank N size (Z.of_nat k) <= N).
  { rewrite <- first_part_rank_S. rewrite first_part_rank_closed by lia.
    pose proof (Z.div_mod N size ltac:(lia)). pose proof (Z.mod_pos_bound N size Hs).
    assert (0 <= N / size) by (apply Z.div_pos; unfold N; lia). unfold k. nia. }
  split.
  - rewrite slice_app by lia. reflexivity.
  - rewrite slice_length; unfold N in *; lia.
Qed.

(** ** Handles *)

Lemma py_index_named : forall n s i, py_index n s = Some i -> named n s i.
Proof.
  intros n s i. unfold py_index, named.
  destruct ((0 <=? s) && (s <? Z.of_nat n)) eqn:H1.
  - apply andb_true_iff in H1. destruct H1 as [H1 H2]. apply Z.leb_le in H1. apply Z.ltb_lt in H2.
    intros H. injection H as <-. lia.
  - destruct ((- Z.of_nat n <=? s) && (s <? 0)) eqn:H2; [|discriminate].
    apply andb_true_iff in H2. destruct H2 as [H2 H3]. apply Z.leb_le in H2. apply Z.ltb_lt in H3.
    intros H. injection H as <-. lia.
Qed.

(** [wanted] with Python's indexing as modelled. *)
Definition wanted0 {E} (n : nat) (files : nat -> option (list E)) (o : hop) (d : list E) : Prop :=
  match o with
  | GetData s _ => if s <? 0 then exists ds, Forall2 (fun i x => files i = Some x) (seq 0 n) ds /\ d = concat ds
                   else exists i, py_index n s = Some i /\ files i = Some d
  | GetBlocklen s _ => exists i, py_index n s = Some i /\ files i = Some d
  end.

Lemma wanted0_wanted : forall E n (files : nat -> option (list E)) o d,
  wanted0 n files o d -> wanted n files o d.
Proof.
  intros E n files [s k|s k] d; unfold wanted0, wanted.
  - destruct (s <? 0); auto. intros [i [H1 H2]]. exists i. split; auto. apply py_index_named; auto.
  - intros [i [H1 H2]]. exists i. split; auto. apply py_index_named; auto.
Qed.

Lemma Forall2_imp : forall A B (P Q : A -> B -> Prop) l m, (forall x y, P x y -> Q x y) ->
  Forall2 P l m -> Forall2 Q l m.
Proof. intros A B P Q l m H F. induction F; constructor; auto. Qed.

Lemma pieces_n_segments : forall N size r chunk, 0 <= N -> 0 < size -> 0 < chunk ->
  n_segments N size r chunk = pieces (fair_share N size r) chunk.
Proof.
  intros N size r chunk H0 H1 H2. unfold n_segments, pieces.
  change (parts_rank N size r) with (fair_share N size r).
  assert (0 <= fair_share N size r).
  { unfold fair_share. pose proof (Z.div_pos N size H0 H1). destruct (r <? N mod size); lia. }
  destruct (Z.ltb_spec (fair_share N size r) chunk).
  - rewrite Z.div_small by lia. reflexivity.
  - assert (1 <= fair_share N size r / chunk) by (apply Z.div_le_lower_bound; lia). lia.
Qed.

Lemma py_index_lt : forall n i k, py_index n i = Some k -> (k < n)%nat.
Proof.
  intros n i k. unfold py_index.
  destruct ((0 <=? i) && (i <? Z.of_nat n)) eqn:E.
  - apply andb_true_iff in E. destruct E as [E1 E2]. apply Z.leb_le in E1. apply Z.ltb_lt in E2.
    intros H; inversion H; subst. lia.
  - destruct ((- Z.of_nat n <=? i) && (i <? 0)) eqn:E'; [|discriminate].
    apply andb_true_iff in E'. destruct E' as [E1 E2]. apply Z.leb_le in E1. apply Z.ltb_lt in E2.
    intros H; inversion H; subst. lia.
Qed.

Definition hinv (n : nat) (st : hstate) : Prop :=
  py_index n (h_num st) = Some (h_file st) \/ h_open st = false.

Lemma switch_inv : forall D n st seg ok st' (e : option (outcome D)),
  switch_handle n st seg ok = (st', e) -> hinv n st ->
  hinv n st' /\ (e = None -> h_num st' = seg) /\
  (forall d, e <> Some (Data d)).
Proof.
  intros D n st seg ok st' e H Hi. unfold switch_handle in H.
  destruct (Z.eqb_spec (h_num st) seg).
  - inversion H; subst. split; auto. split; auto. congruence.
  - destruct (py_index n seg) eqn:E; [destruct (ok n1) eqn:Eo|];
      inversion H; subst; (split; [unfold hinv; simpl; auto|split; [simpl; congruence|congruence]]).
Qed.

Definition hop_segment (o : hop) : Z := match o with GetData s _ => s | GetBlocklen s _ => s end.

Lemma read_all_data : forall E (files : nat -> option (list E)) ok is d,
  read_all files ok is = Data d ->
  exists ds, Forall2 (fun i x => files i = Some x) is ds /\ d = concat ds.
Proof.
  intros E files ok is; induction is as [|i is IH]; intros d H; simpl in H.
  - inversion H. exists []. split; auto.
  - destruct (ok i); [|discriminate]. destruct (files i) eqn:Ef; [|discriminate].
    destruct (read_all files ok is) eqn:Er; try discriminate. inversion H; subst.
    destruct (IH _ eq_refl) as [ds [H1 ->]]. exists (l :: ds). split; auto.
Qed.

Lemma hstep_ok : forall E n (files : nat -> option (list E)) st o st' r,
  hstep n files st o = (st', r) -> hinv n st ->
  hinv n st' /\ (forall d, r = Data d -> wanted0 n files o d).
Proof.
  intros E n files st o st' r H Hi.
  assert (G : forall seg ok, (match switch_handle n st seg ok with
      | (st', Some e) => (st', e) | (st', None) => (st', read_handle files st') end) = (st', r) ->
      hinv n st' /\ (forall d, r = Data d -> exists i, py_index n seg = Some i /\ files i = Some d)).
  { intros seg ok H0. destruct (switch_handle n st seg ok) as [st1 e] eqn:Es.
    destruct (switch_inv (list E) _ _ _ _ _ _ Es Hi) as [H1 [H2 H3]].
    destruct e; inversion H0; subst.
    - split; auto. intros d ->. destruct (H3 d); auto.
    - split; auto. intros d Hd. unfold read_handle in Hd.
      destruct (h_open st') eqn:Eo; [|discriminate].
      destruct (files (h_file st')) eqn:Ef; inversion Hd; subst.
      exists (h_file st'). split; auto. rewrite <- (H2 eq_refl).
      destruct H1 as [H1|H1]; [auto|congruence]. }
  destruct o as [seg ok|seg ok]; simpl in H.
  - unfold wanted0. destruct (Z.ltb_spec seg 0).
    + inversion H; subst. split; auto. intros d Hd. eapply read_all_data; eauto.
    + apply G in H. auto.
  - apply G in H. unfold wanted0. auto.
Qed.

Lemma hrun_ok : forall E n (files : nat -> option (list E)) ops st st' rs,
  hrun n files st ops = (st', rs) -> hinv n st ->
  Forall2 (fun o r => forall d, r = Data d -> wanted0 n files o d) ops rs.
Proof.
  intros E n files ops; induction ops as [|o ops IH]; intros st st' rs H Hi; cbn [hrun] in H.
  - inversion H; constructor.
  - destruct (hstep n files st o) as [st1 r] eqn:E1.
    destruct (hrun n files st1 ops) as [st2 rs'] eqn:E2. inversion H; subst.
    destruct (hstep_ok _ _ _ _ _ _ _ E1 Hi) as [H1 H2]. constructor; eauto.
Qed.

Lemma py_index_some : forall n s, - Z.of_nat n <= s < Z.of_nat n -> exists i, py_index n s = Some i.
Proof.
  intros n s H. unfold py_index.
  destruct ((0 <=? s) && (s <? Z.of_nat n)) eqn:E; [eauto|].
  destruct ((- Z.of_nat n <=? s) && (s <? 0)) eqn:E'; [eauto|].
  apply andb_false_iff in E. apply andb_false_iff in E'.
  rewrite Z.leb_gt, Z.ltb_ge in E. rewrite Z.leb_gt, Z.ltb_ge in E'. lia.
Qed.

Lemma read_all_total : forall E (files : nat -> option (list E)) ok is,
  (forall i, In i is -> ok i = true /\ files i <> None) -> exists d, read_all files ok is = Data d.
Proof.
  intros E files ok is; induction is as [|i is IH]; intros H; simpl; [eauto|].
  destruct (H i (or_introl eq_refl)) as [-> Hf]. destruct (files i); [|congruence].
  destruct IH as [d ->]; [intros; apply H; right; auto|]. eauto.
Qed.

Lemma hstep_good : forall E n (files : nat -> option (list E)) st o st' r,
  hstep n files st o = (st', r) -> hinv n st -> h_open st = true -> good_call n files o ->
  h_open st' = true /\ exists d, r = Data d.
Proof.
  intros E n files st o st' r H Hi Ho [Hf Hg].
  assert (G : forall seg ok, - Z.of_nat n <= seg < Z.of_nat n -> (forall i, (i < n)%nat -> ok i = true) ->
     (match switch_handle n st seg ok with
      | (st', Some e) => (st', e) | (st', None) => (st', read_handle files st') end) = (st', r) ->
      h_open st' = true /\ exists d, r = Data d).
  { intros seg ok Hs Hok H0. unfold switch_handle in H0.
    assert (Hin : forall i, (i < n)%nat -> exists d, files i = Some d)
      by (intros i Hi'; specialize (Hf i Hi'); destruct (files i); [eauto|congruence]).
    destruct (Z.eqb_spec (h_num st) seg).
    - inversion H0; subst. split; auto. unfold read_handle. rewrite Ho.
      destruct Hi as [Hi|Hi]; [|congruence].
      destruct (Hin _ (py_index_lt _ _ _ Hi)) as [d ->]. eauto.
    - destruct (py_index_some n seg Hs) as [i Ei]. rewrite Ei in H0.
      pose proof (py_index_lt _ _ _ Ei) as Hlt. rewrite (Hok i Hlt) in H0. inversion H0; subst.
      split; auto. unfold read_handle. simpl. destruct (Hin i Hlt) as [d ->]. eauto. }
  destruct o as [seg ok|seg ok]; simpl in H.
  - destruct Hg as [Hg1 Hg2]. destruct (Z.ltb_spec seg 0).
    + inversion H; subst. split; auto. apply read_all_total. intros i Hin.
      apply in_seq in Hin. split; [apply Hg2; lia|apply Hf; lia].
    + eapply G; eauto. lia.
  - destruct Hg. eapply G; eauto.
Qed.

Lemma hrun_good : forall E n (files : nat -> option (list E)) ops st st' rs,
  hrun n files st ops = (st', rs) -> hinv n st -> h_open st = true ->
  Forall (good_call n files) ops ->
  Forall2 (fun o r => exists d, r = Data d /\ wanted0 n files o d) ops rs.
Proof.
  intros E n files ops; induction ops as [|o ops IH]; intros st st' rs H Hi Ho Hg; cbn [hrun] in H.
  - inversion H; constructor.
  - destruct (hstep n files st o) as [st1 r] eqn:E1.
    destruct (hrun n files st1 ops) as [st2 rs'] eqn:E2. inversion H; subst.
    inversion Hg as [|? ? Hg1 Hg2]; subst.
    destruct (hstep_ok _ _ _ _ _ _ _ E1 Hi) as [H1 H2].
    destruct (hstep_good _ _ _ _ _ _ _ E1 Hi Ho Hg1) as [H3 [d Hd]].
    constructor; eauto.
Qed.

Lemma hinv_init : forall n, (0 < n)%nat -> hinv n h_init.
Proof.
  intros n H. left. unfold py_index. simpl.
  destruct (Z.ltb_spec 0 (Z.of_nat n)); [auto|lia].
Qed.

(** ** The statements of the property file *)

Lemma C31_partition_aux : forall A (is_hdf5 : A -> bool) (fnames : list A) size, (0 < size)%nat ->
  exists shares, length shares = size /\
    (forall r, (r < size)%nat -> rank_files is_hdf5 fnames size r = nth_error shares r) /\
    Permutation (concat shares) (filter is_hdf5 fnames).
Proof.
  intros A p fnames size Hs.
  exists (map (fun r => filter p (rank_raw fnames size r)) (seq 0 size)). split; [|split].
  - rewrite map_length, seq_length. auto.
  - intros r Hr. rewrite nth_error_map, rank_files_raw by auto.
    rewrite (nth_error_nth' _ O) by (rewrite seq_length; auto).
    rewrite seq_nth by auto. reflexivity.
  - rewrite <- flat_map_concat_map, <- filter_flat_map. apply Permutation_filter.
    apply rank_raw_perm; auto.
Qed.

Lemma C31_balance_aux : forall A (fnames : list A) size r r' a b, (0 < size)%nat ->
  (r < size)%nat -> (r' < size)%nat ->
  rank_files (fun _ => true) fnames size r = Some a ->
  rank_files (fun _ => true) fnames size r' = Some b -> (length a <= S (length b))%nat.
Proof.
  intros A fnames size r r' a b Hs Hr Hr' Ha Hb.
  rewrite rank_files_raw in Ha, Hb by auto. inversion Ha; inversion Hb; subst.
  assert (F : forall l : list A, filter (fun _ => true) l = l)
    by (induction l; simpl; congruence).
  rewrite !F, !rank_raw_length by auto.
  destruct (_ && _), (_ && _); lia.
Qed.

Lemma C31_starved_aux : forall A (is_hdf5 : A -> bool) (fnames : list A) size reorder,
  (forall l : list A, Permutation (reorder l) l) -> (length fnames < size)%nat ->
  exists fs, rank_files is_hdf5 fnames size 0 = Some fs /\ fs = [] /\ hdf5_init reorder fs = None.
Proof.
  intros A p fnames size reorder Hre Hlt. exists []. split.
  - unfold rank_files. rewrite Nat.div_small by auto. simpl. unfold slice. reflexivity.
  - split; auto. unfold hdf5_init. specialize (Hre []). apply Permutation_sym, Permutation_nil in Hre.
    rewrite Hre. auto.
Qed.

Lemma C32_shares_aux : forall A (block : list A) size chunk, 0 < size -> 0 < chunk ->
  let N := Z.of_nat (length block) in
  exists shares, Z.of_nat (length shares) = size /\ concat shares = block /\
    forall r share, nth_error shares r = Some share -> exists unread,
      share = bigfile_rank_reads block N size (Z.of_nat r) chunk ++ unread /\
      Z.of_nat (length share) = parts_rank N size (Z.of_nat r) /\
      Z.of_nat (length unread) =
        parts_rank N size (Z.of_nat r) mod n_segments N size (Z.of_nat r) chunk.
Proof.
  intros A block size chunk Hs Hc N.
  set (g := fun i => Z.to_nat (first_part_rank N size (Z.of_nat i))).
  exists (map (fun r => slice (g r) (g (S r)) block) (seq 0 (Z.to_nat size))).
  split; [rewrite map_length, seq_length; lia|]. split.
  - rewrite <- flat_map_concat_map, (slices_seq A g).
    + unfold g. rewrite Z2Nat.id by lia. rewrite first_part_rank_size by (unfold N; lia).
      unfold N. rewrite Nat2Z.id. apply slice_all.
    + intros i. unfold g. pose proof (first_part_rank_mono N size i Hs ltac:(unfold N; lia)). lia.
  - intros r share H.
    assert (Hr : (r < Z.to_nat size)%nat).
    { assert (nth_error (map (fun r => slice (g r) (g (S r)) block) (seq 0 (Z.to_nat size))) r <> None)
        as Hne by congruence. apply nth_error_Some in Hne. rewrite map_length, seq_length in Hne. auto. }
    rewrite nth_error_map, (nth_error_nth' _ O), seq_nth in H by (rewrite ?seq_length; auto).
    simpl in H. inversion H; subst share. clear H.
    destruct (rank_share A block size chunk (Z.of_nat r) Hs Hc ltac:(lia)) as [sh [un [E1 [E2 E3]]]].
    fold N in E1, E2, E3. replace (Z.of_nat r + 1) with (Z.of_nat (S r)) in E1 by lia.
    exists un. unfold g. rewrite E1. split; auto. split; auto. rewrite <- E1.
    pose proof (first_part_rank_mono N size r Hs ltac:(unfold N; lia)) as Hf.
    assert (Hend : first_part_rank N size (Z.of_nat (S r)) <= N).
    { rewrite first_part_rank_closed by lia.
      pose proof (Z.div_mod N size ltac:(lia)). pose proof (Z.mod_pos_bound N size Hs).
      assert (0 <= N / size) by (apply Z.div_pos; unfold N; lia). nia. }
    rewrite slice_length by (unfold N in *; lia).
    rewrite first_part_rank_S in *. lia.
Qed.

Lemma C32_default_aux : forall A (block : list A), Z.of_nat (length block) = 2 * 256 ^ 3 + 1 ->
  bigfile_all_reads block 1 (256 ^ 3) <> block /\
  Z.of_nat (length (bigfile_all_reads block 1 (256 ^ 3))) = 2 * 256 ^ 3.
Proof.
  intros A block H.
  assert (HL : Z.of_nat (length (bigfile_all_reads block 1 (256 ^ 3))) = 2 * 256 ^ 3).
  { rewrite all_reads_length by lia. rewrite H. reflexivity. }
  split; auto. intros E. rewrite E in HL. lia.
Qed.

Lemma C33_right_file_aux : forall E n (files : nat -> option (list E)) ops, (0 < n)%nat ->
  Forall2 (fun o r => forall d, r = Data d -> wanted n files o d)
    ops (snd (hrun n files h_init ops)).
Proof.
  intros E n files ops Hn. destruct (hrun n files h_init ops) as [st rs] eqn:Er. simpl.
  apply (Forall2_imp _ _ (fun o r => forall d, r = Data d -> wanted0 n files o d));
    [intros x y W d D; apply wanted0_wanted, (W d D)|].
  eapply hrun_ok; eauto. apply hinv_init; auto.
Qed.

Lemma C33_total_aux : forall E n (files : nat -> option (list E)) ops, (0 < n)%nat ->
  Forall (good_call n files) ops ->
  Forall2 (fun o r => exists d, r = Data d /\ wanted n files o d)
    ops (snd (hrun n files h_init ops)).
Proof.
  intros E n files ops Hn Hg. destruct (hrun n files h_init ops) as [st rs] eqn:Er. simpl.
  apply (Forall2_imp _ _ (fun o r => exists d, r = Data d /\ wanted0 n files o d));
    [intros x y [d [D W]]; exists d; split; [exact D|apply wanted0_wanted, W]|].
  eapply hrun_good; eauto. apply hinv_init; auto.
Qed.

Lemma C33_stale_aux : forall E n (files : nat -> option (list E)) bad,
  (0 < n)%nat -> bad <> 0 -> (forall i, files i <> None) ->
  exists ok ops, Forall (good_call n files) (skipn 1 ops) /\
    ops = [GetBlocklen bad (fun _ => false); GetData 0 ok; GetData 0 ok] /\
    exists e, snd (hrun n files h_init ops) = [e; ClosedError; ClosedError].
Proof.
  intros E n files bad Hn Hb Hf. exists (fun _ => true).
  eexists. split; [|split; [reflexivity|]].
  - simpl. repeat constructor; simpl; intros; auto; lia.
  - unfold hrun, hstep, switch_handle. cbn [h_num h_init].
    destruct (Z.eqb_spec 0 bad); [congruence|].
    destruct (py_index n bad); eexists; cbn; reflexivity.
Qed.

Lemma C32_rank_shares_aux : forall A (block : list A) size chunk, 0 < size -> 0 < chunk ->
  let N := Z.of_nat (length block) in
  exists shares, Z.of_nat (length shares) = size /\ concat shares = block /\
    forall r share, nth_error shares r = Some share -> exists unread,
      share = bigfile_rank_reads block N size (Z.of_nat r) chunk ++ unread /\
      Z.of_nat (length share) = fair_share N size (Z.of_nat r) /\
      Z.of_nat (length unread) =
        fair_share N size (Z.of_nat r) mod pieces (fair_share N size (Z.of_nat r)) chunk.
Proof.
  intros A block size chunk Hs Hc N.
  destruct (C32_shares_aux A block size chunk Hs Hc) as [shares [L [Cc H]]].
  exists shares. split; [exact L|]. split; [exact Cc|]. intros r share E.
  destruct (H r share E) as [unread [H1 [H2 H3]]]. exists unread. split; [exact H1|]. split; [exact H2|].
  rewrite pieces_n_segments in H3 by lia. exact H3.
Qed.

Lemma C32_complete_aux : forall A (block : list A) size chunk, 0 < size -> 0 < chunk ->
  (bigfile_all_reads block size chunk = block <->
   forall r, 0 <= r < size ->
     (pieces (fair_share (Z.of_nat (length block)) size r) chunk |
      fair_share (Z.of_nat (length block)) size r)).
Proof.
  intros A block size chunk Hs Hc. rewrite (all_reads_iff A block size chunk Hs Hc).
  split; intros H r Hr; specialize (H r Hr); rewrite pieces_n_segments in * by lia; exact H.
Qed.
